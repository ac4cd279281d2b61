(** Messages and extensions are encoded as in MessageSpec. *)
From Verif Require Import Base Syntax Crypto Messages MessageProofs MessageSpec.

(** [encode] succeeds exactly if [ok], with [w]. *)
Definition enc_is (t : ty) (o : fopts) (v : val) (ok : bool) (w : bytes) : Prop :=
  forall b, encode t o v = Ok b <-> ok = true /\ b = w.

Lemma is_uint s o n : varint o = false -> enc_is (TUint s) o (VUint n) (n <? 256 ^ N.of_nat (usz s)) (be (usz s) n).
Proof.
  intros V b. cbn [encode]. rewrite V. destruct (_ <? _); (split; [intros H|intros [H ->]]); try discriminate; [|reflexivity].
  apply Ok_inj in H. auto.
Qed.
Lemma is_bind {A} (r : res A) (k : A -> res bytes) b : (do a <- r; k a) = Ok b <-> exists a, r = Ok a /\ k a = Ok b.
Proof.
  destruct r; cbn [bind]; split; intros H; try discriminate; eauto; destruct H as (? & H & ?); try discriminate. apply Ok_inj in H. now subst.
Qed.

Lemma is_all {A} t o (to : A -> val) ok (w : A -> bytes) : (forall a, enc_is t o (to a) (ok a) (w a)) ->
  forall l b, enc_all (encode t o) (map to l) = Ok b <-> forallb ok l = true /\ b = concat (map w l).
Proof.
  intros H. induction l as [|a l IH]; intros b; cbn [map enc_all forallb concat].
  - split; [intros E; apply Ok_inj in E; auto|intros [_ ->]; reflexivity].
  - rewrite is_bind. rewrite andb_true_iff. split.
    + intros (x & H1 & H2). apply is_bind in H2. destruct H2 as (y & H2 & H3). apply Ok_inj in H3. apply H in H1. apply IH in H2. destruct H1, H2. subst. auto.
    + intros ([H1 H2] & ->). exists (w a). split; [now apply H|]. apply is_bind. exists (concat (map w l)). split; [now apply IH|reflexivity].
Qed.

(** The limits of a tag. *)
Definition lim (h a m : Z) (n : N) : bool :=
  (n <? 256 ^ Z.to_N h) && (Z.to_N a <=? n) && ((m =? 0)%Z || (n <=? Z.to_N m)).
Lemma is_length h a m n b : (0 < h)%Z -> (0 <= a)%Z -> (0 <= m)%Z -> encodeLength n (tag h a m) = Ok b <-> lim h a m n = true /\ b = be (Z.to_nat h) n.
Proof.
  intros Hh Ha Hm. unfold encodeLength, tag, lim. cbn [maxSize minSize omitHeader varintHeader headerSize].
  assert (E : (0 <? Z.shiftr (Z.of_N n) (8 * h))%Z = negb (n <? 256 ^ Z.to_N h)).
  { assert (Ew : Z.of_N (256 ^ Z.to_N h) = (2 ^ (8 * h))%Z).
    { rewrite N2Z.inj_pow, Z2N.id by lia. change (Z.of_N 256) with (2 ^ 8)%Z. now rewrite <- Z.pow_mul_r by lia. }
    rewrite Z.shiftr_div_pow2 by lia. rewrite <- Ew.
    assert (0 < 256 ^ Z.to_N h) by (apply N.neq_0_lt_0, N.pow_nonzero; discriminate).
    destruct (N.ltb_spec n (256 ^ Z.to_N h)); cbn [negb].
    - apply Z.ltb_ge. rewrite Z.div_small by lia. lia.
    - apply Z.ltb_lt. apply Z.div_str_pos. lia. }
  rewrite E. apply Z.ltb_lt in Hh as Eh. rewrite Eh.
  destruct (Z.ltb_spec 0 m), (Z.ltb_spec m (Z.of_N n)), (Z.ltb_spec (Z.of_N n) a), (N.ltb_spec n (256 ^ Z.to_N h)), (N.leb_spec (Z.to_N a) n),
    (Z.eqb_spec m 0), (N.leb_spec n (Z.to_N m)); cbn [andb orb negb]; try lia;
    (split; [intros G; try discriminate; apply Ok_inj in G; auto|intros [G ->]; try discriminate; reflexivity]).
Qed.
Lemma is_slice {A} t h a m (to : A -> val) ok (w : A -> bytes) l : (0 < h)%Z -> (0 <= a)%Z -> (0 <= m)%Z -> (forall a', enc_is t (tag h a m) (to a') (ok a') (w a')) ->
  enc_is (TSlice t) (tag h a m) (VList (map to l)) (forallb ok l && lim h a m (len (concat (map w l)))) (vector (Z.to_nat h) (concat (map w l))).
Proof.
  intros Hh Ha Hm H b. cbn [encode]. rewrite is_bind, andb_true_iff. split.
  - intros (x & H1 & H2). apply is_bind in H2. destruct H2 as (y & H2 & H3). apply Ok_inj in H3. apply (is_all _ _ _ _ _ H) in H1.
    apply is_length in H2; auto. destruct H1, H2. subst. auto.
  - intros ([H1 H2] & ->). exists (concat (map w l)). split; [now apply (is_all _ _ _ _ _ H)|]. apply is_bind.
    exists (be (Z.to_nat h) (len (concat (map w l)))). split; [now apply is_length|reflexivity].
Qed.
Lemma concat_b1 b : concat (map (fun x => be 1 (bN x)) b) = b.
Proof. induction b as [|x b IH]; [reflexivity|]. cbn [map concat]. rewrite IH. change (be 1 (bN x)) with [b8 (bN x)]. rewrite b8_bN. reflexivity. Qed.
Lemma is_opaque h a m b : (0 < h)%Z -> (0 <= a)%Z -> (0 <= m)%Z -> enc_is opaque (tag h a m) (vbytes b) (lim h a m (len b)) (vector (Z.to_nat h) b).
Proof.
  intros Hh Ha Hm x. unfold opaque, vbytes.
  pose proof (is_slice u8 h a m (fun y => VUint (bN y)) (fun y => bN y <? 256 ^ N.of_nat 1) (fun y => be 1 (bN y)) b Hh Ha Hm) as H.
  rewrite concat_b1 in H. specialize (H ltac:(intros y; now apply is_uint) x). rewrite H.
  assert (E : forallb (fun y => bN y <? 256 ^ N.of_nat 1) b = true) by (apply forallb_forall; intros y _; apply N.ltb_lt, bN_lt). now rewrite E.
Qed.
Lemma is_bytes n o b : varint o = false -> enc_is (TArray n u8) o (vbytes b) (len b =? N.of_nat n) b.
Proof.
  intros V x. cbn [encode]. unfold vbytes. rewrite map_length.
  assert (E : (List.length b =? n)%nat = (len b =? N.of_nat n)) by (unfold len; destruct (Nat.eqb_spec (List.length b) n), (N.eqb_spec (N.of_nat (List.length b)) (N.of_nat n)); lia || reflexivity).
  rewrite E. destruct (len b =? N.of_nat n); [|split; [discriminate|intros [G _]; discriminate]].
  rewrite (is_all u8 o (fun y => VUint (bN y)) (fun y => bN y <? 256 ^ N.of_nat 1) (fun y => be 1 (bN y))); [|intros y; now apply is_uint].
  rewrite concat_b1. assert (G : forallb (fun y => bN y <? 256 ^ N.of_nat 1) b = true) by (apply forallb_forall; intros y _; apply N.ltb_lt, bN_lt). now rewrite G.
Qed.
Definition fields_are (fs : fields) (l : list val) (ok : bool) (w : bytes) : Prop := forall b, encode_fields fs l = Ok b <-> ok = true /\ b = w.
Lemma is_nil : fields_are FNil [] true [].
Proof. intros b. cbn. split; [intros H; apply Ok_inj in H; auto|intros [_ ->]; reflexivity]. Qed.
Lemma is_cons o t fs v l ok w ok' w' : omit o = false -> enc_is t o v ok w -> fields_are fs l ok' w' -> fields_are (FCons o t fs) (v :: l) (ok && ok') (w ++ w').
Proof.
  intros O H1 H2 b. cbn [encode_fields]. rewrite O, is_bind, andb_true_iff. split.
  - intros (x & G1 & G2). apply is_bind in G2. destruct G2 as (y & G2 & G3). apply Ok_inj in G3. apply H1 in G1. apply H2 in G2. destruct G1, G2. subst. auto.
  - intros ([G1 G2] & ->). exists w. split; [now apply H1|]. apply is_bind. exists w'. split; [now apply H2|reflexivity].
Qed.
Lemma is_struct fs l ok w o : fields_are fs l ok w -> enc_is (TStruct fs) o (VList l) ok w.
Proof. intros H b. exact (H b). Qed.
Lemma is_eq t o v ok w ok' w' : enc_is t o v ok w -> ok = ok' -> w = w' -> enc_is t o v ok' w'.
Proof. now intros H -> ->. Qed.
Lemma is_marshal t v ok w b : enc_is t null_opts v ok w -> ty_valid t = true -> marshal t v = Ok b <-> ok = true /\ b = w.
Proof. intros H E. unfold marshal. rewrite E. apply H. Qed.

Ltac enc :=
  match goal with
  | |- fields_are _ [] _ _ => apply is_nil
  | |- fields_are (struct (_ :: _)) _ _ _ => cbn [struct]; enc
  | |- fields_are (FCons _ _ _) _ _ _ => eapply is_cons; [reflexivity|enc|enc]
  | |- fields_are _ _ _ _ => cbn [struct]; enc
  | |- enc_is (TStruct _) _ _ _ _ => apply is_struct; enc
  | |- enc_is (TUint _) _ _ _ _ => apply is_uint; reflexivity
  | |- enc_is opaque _ _ _ _ => apply is_opaque; lia
  | |- enc_is (TArray _ u8) _ _ _ _ => apply is_bytes; reflexivity
  | |- enc_is (TSlice _) (tag _ _ _) (VList (map _ _)) _ _ => eapply is_slice; [lia|lia|lia|intros ?; enc]
  | |- enc_is u16 _ _ _ _ => apply is_uint; reflexivity
  | |- enc_is u32 _ _ _ _ => apply is_uint; reflexivity
  | |- enc_is u8 _ _ _ _ => apply is_uint; reflexivity
  end.
Lemma lim_sized h a b : (0 <= a)%Z -> (0 < h <= 8)%Z -> lim h a 0 (len b) = sized (Z.to_N a) (256 ^ Z.to_N h - 1) b.
Proof.
  intros Ha Hh. unfold lim, sized. assert (0 < 256 ^ Z.to_N h) by (apply N.neq_0_lt_0, N.pow_nonzero; discriminate). cbn [Z.eqb orb]. rewrite andb_true_r, andb_comm. f_equal.
  destruct (N.ltb_spec (len b) (256 ^ Z.to_N h)), (N.leb_spec (len b) (256 ^ Z.to_N h - 1)); lia || reflexivity.
Qed.
Lemma lim_max h a m b : (0 <= a)%Z -> (0 < m)%Z -> Z.to_N m <? 256 ^ Z.to_N h = true -> lim h a m (len b) = sized (Z.to_N a) (Z.to_N m) b.
Proof.
  intros Ha Hm Hh. unfold lim, sized. apply N.ltb_lt in Hh. destruct (Z.eqb_spec m 0); [lia|]. cbn [orb].
  destruct (N.ltb_spec (len b) (256 ^ Z.to_N h)), (N.leb_spec (len b) (Z.to_N m)), (N.leb_spec (Z.to_N a) (len b)); cbn [andb]; lia || reflexivity.
Qed.

Lemma is_ext o e : enc_is ext_ty o (vext e) (ext_fits e) (ext_wire e).
Proof.
  unfold ext_ty, vext. eapply is_eq; [enc| |]; unfold ext_fits, ext_wire.
  - rewrite lim_sized by lia. rewrite andb_true_r. reflexivity.
  - now rewrite app_nil_r.
Qed.
Lemma is_exts e : enc_is (TSlice ext_ty) (tag 2 0 0) (vexts e) (exts_fit e) (vector 2 (exts_wire e)).
Proof.
  unfold vexts. eapply is_eq; [apply is_slice; [lia|lia|lia|intros a; apply is_ext]| |reflexivity]. rewrite lim_sized by lia. reflexivity.
Qed.
Ltac tidy := rewrite ?lim_sized, ?lim_max by (lia || reflexivity); rewrite ?andb_true_r, ?app_nil_r, ?andb_assoc; try reflexivity.
Lemma is_nums16 a m l : (0 <= a)%Z -> (0 <= m)%Z -> forall h, (0 < h)%Z ->
  enc_is (TSlice u16) (tag h a m) (vnums l) (forallb u16_fits l && lim h a m (len (nums16 l))) (vector (Z.to_nat h) (nums16 l)).
Proof. intros Ha Hm h Hh. unfold vnums. apply is_slice; auto. intros n. now apply is_uint. Qed.
Lemma is_share o k : enc_is share_ty o (vshare k) (u16_fits (ks_group k) && sized 1 65535 (ks_data k)) (share_wire k).
Proof. unfold share_ty, vshare. eapply is_eq; [enc| |]; unfold share_wire; tidy. Qed.
Lemma is_pskid o k : enc_is pskid_ty o (vpskid k) (sized 1 65535 (pi_identity k) && (pi_age k <? 2 ^ 32)) (pskid_wire k).
Proof. unfold pskid_ty, vpskid. eapply is_eq; [enc| |]; unfold pskid_wire; tidy. Qed.
Lemma is_binder o k : enc_is binder_ty o (vbinder k) (sized 32 255 k) (vector 1 k).
Proof. unfold binder_ty, vbinder. eapply is_eq; [enc| |]; tidy. Qed.
Lemma is_ce o k : enc_is ce_ty o (vce k) (ce_fits k) (ce_wire k).
Proof.
  unfold ce_ty, vce. eapply is_eq.
  - apply is_struct. cbn [struct]. eapply is_cons; [reflexivity|enc|]. eapply is_cons; [reflexivity|apply is_exts|apply is_nil].
  - unfold ce_fits. tidy.
  - unfold ce_wire. tidy.
Qed.

Ltac step_enc := match goal with
  | |- fields_are FNil [] _ _ => apply is_nil
  | |- fields_are (FCons _ _ _) _ _ _ => eapply is_cons; [reflexivity| |]
  | |- enc_is _ _ (vexts _) _ _ => apply is_exts
  | |- enc_is _ _ (vnums _) _ _ => apply is_nums16; lia
  | |- enc_is opaque _ (vbytes _) _ _ => apply is_opaque; lia
  | |- enc_is (TArray _ u8) _ _ _ _ => apply is_bytes; reflexivity
  | |- enc_is _ _ (VUint _) _ _ => apply is_uint; reflexivity
  | |- enc_is _ _ (VList (map vshare _)) _ _ => apply is_slice; [lia|lia|lia|intros ?; apply is_share]
  | |- enc_is _ _ (VList (map vpskid _)) _ _ => apply is_slice; [lia|lia|lia|intros ?; apply is_pskid]
  | |- enc_is _ _ (VList (map vbinder _)) _ _ => apply is_slice; [lia|lia|lia|intros ?; apply is_binder]
  | |- enc_is _ _ (VList (map vce _)) _ _ => apply is_slice; [lia|lia|lia|intros ?; apply is_ce]
  | |- enc_is _ _ (vshare _) _ _ => apply is_share
  | |- enc_is (TStruct _) _ _ _ _ => apply is_struct; cbn [struct]
  end.
Ltac wire ty := match goal with |- ?m = Ok ?b <-> _ => 
  eapply is_marshal; [eapply is_eq; [unfold ty; repeat step_enc| |]|reflexivity] end.

Lemma ch_is c b : ch_marshal c = Ok b <-> ch_fits c = true /\ b = ch_wire c.
Proof.
  unfold ch_marshal. destruct (N.eqb_spec (ch_version c) tls12Version) as [E|E].
  - wire ch_ty.
    + unfold ch_fits. tidy; rewrite <- !andb_assoc; reflexivity.
    + unfold ch_wire. rewrite E. change (tls12Version =? 0x0303) with true. tidy.
  - wire ch_dtls_ty.
    + unfold ch_fits. tidy; rewrite <- !andb_assoc; reflexivity.
    + unfold ch_wire. apply N.eqb_neq in E. change 0x0303 with tls12Version. rewrite E. tidy.
Qed.

Lemma sh_is s b : sh_marshal s = Ok b <-> sh_fits s = true /\ b = sh_wire s.
Proof. unfold sh_marshal. wire sh_ty; [unfold sh_fits|unfold sh_wire]; tidy; rewrite <- !andb_assoc; reflexivity. Qed.
Lemma ee_is l b : ee_marshal l = Ok b <-> exts_fit l = true /\ b = vector 2 (exts_wire l).
Proof. unfold ee_marshal, extlist_marshal. wire extlist_ty; tidy. Qed.
Lemma cert_is c b : cert_marshal c = Ok b <-> cert_fits c = true /\ b = cert_wire c.
Proof. unfold cert_marshal. wire cert_ty; [unfold cert_fits|unfold cert_wire]; tidy. Qed.
Lemma cr_is c b : cr_marshal c = Ok b <-> sized 0 255 (cr_context c) && exts_fit (cr_exts c) = true /\ b = vector 1 (cr_context c) ++ vector 2 (exts_wire (cr_exts c)).
Proof. unfold cr_marshal. wire cr_ty; tidy. Qed.
Lemma cv_is c b : cv_marshal c = Ok b <-> u16_fits (cv_alg c) && sized 0 65535 (cv_sig c) = true /\ b = be 2 (cv_alg c) ++ vector 2 (cv_sig c).
Proof. unfold cv_marshal. wire cv_ty; tidy. Qed.
Lemma tkt_is t b : tkt_marshal t = Ok b <-> tkt_fits t = true /\ b = tkt_wire t.
Proof. unfold tkt_marshal. wire tkt_ty; [unfold tkt_fits|unfold tkt_wire]; tidy. Qed.
Lemma ku_is r b : ku_marshal r = Ok b <-> (r <? 256) = true /\ b = be 1 r.
Proof. unfold ku_marshal. wire ku_ty; tidy. Qed.
Lemma fin_is n d b : fin_marshal n d = Ok b <-> (len d =? N.of_nat n) = true /\ b = d.
Proof.
  unfold fin_marshal, len. destruct (Nat.eqb_spec (List.length d) n) as [->|E]; cbn [negb].
  - rewrite N.eqb_refl. split; [intros H; apply Ok_inj in H; auto|intros [_ ->]; reflexivity].
  - split; [discriminate|]. intros [H _]. apply N.eqb_eq in H. lia.
Qed.
Theorem body_is x b : body_marshal x = Ok b <-> body_fits x = true /\ b = body_wire x.
Proof.
  destruct x; cbn [body_marshal body_fits body_wire]; [apply ch_is|apply sh_is|apply ee_is|apply cert_is|apply cr_is|apply cv_is|apply fin_is|apply tkt_is|apply ku_is|].
  split; [intros H; apply Ok_inj in H; auto|intros [_ ->]; reflexivity].
Qed.

(** ** Extensions *)

Lemma size_is k : sizeValid k = (len (ks_data k) =? share_size (ks_group k)).
Proof.
  unfold sizeValid. assert (E : N.of_nat (keyExchangeSize (ks_group k)) = share_size (ks_group k)).
  { unfold keyExchangeSize, X25519, P256, P384, P521, FFDHE2048, FFDHE3072, FFDHE4096, FFDHE6144, FFDHE8192. generalize (ks_group k). intros g.
    repeat match goal with |- context [g =? ?n] => destruct (N.eqb_spec g n) as [->|?]; [reflexivity|] end.
    destruct g as [|p]; [reflexivity|]. cbn [share_size].
    do 9 (try (destruct p as [p|p|]; try reflexivity; try congruence)). }
  rewrite <- E. unfold len. destruct (Nat.eqb_spec (List.length (ks_data k)) (keyExchangeSize (ks_group k))) as [->|];
    [now rewrite N.eqb_refl|]. symmetry. apply N.eqb_neq. lia.
Qed.
Lemma share_size_bound g : share_size g <= 65535.
Proof. destruct g as [|p]; [cbn; lia|]. cbn [share_size]. do 9 (try (destruct p as [p|p|]; try (cbn; lia))). Qed.
Lemma share_fits_is k : u16_fits (ks_group k) && sized 1 65535 (ks_data k) && sizeValid k = share_fits k.
Proof.
  unfold share_fits, sized. rewrite size_is. pose proof (share_size_bound (ks_group k)).
  destruct (u16_fits _), (N.eqb_spec (len (ks_data k)) (share_size (ks_group k))), (N.leb_spec 1 (len (ks_data k))), (N.leb_spec (len (ks_data k)) 65535); cbn [andb]; lia || reflexivity.
Qed.
Lemma shares_fit_is l : forallb (fun k => u16_fits (ks_group k) && sized 1 65535 (ks_data k)) l && forallb sizeValid l = forallb share_fits l.
Proof.
  induction l as [|k l IH]; [reflexivity|]. cbn [forallb]. rewrite <- IH, <- (share_fits_is k).
  destruct (u16_fits _), (sized _ _ _), (sizeValid k), (forallb _ l), (forallb sizeValid l); reflexivity.
Qed.
Lemma forallb_same {A} (f g : A -> bool) l : (forall a, f a = g a) -> forallb f l = forallb g l.
Proof. intros H. induction l; simpl; congruence. Qed.
Theorem xb_is x b : xb_marshal x = Ok b <-> xb_fits x = true /\ b = xb_wire x.
Proof.
  destruct x; cbn [xb_marshal xb_fits xb_wire].
  - unfold sni_marshal. eapply is_marshal; [eapply is_eq|reflexivity].
    + unfold sni_ty. apply is_struct. cbn [struct]. eapply is_cons; [reflexivity| |apply is_nil].
      change [VList [VUint 0; vbytes name]] with (map (fun name => VList [VUint 0; vbytes name]) [name]).
      eapply is_slice; [lia|lia|lia|]. intros a. apply is_struct. cbn [struct]. repeat step_enc.
    + cbn [forallb map concat]. tidy.
    + cbn [map concat]. tidy.
  - unfold ks_client_marshal. destruct (forallb sizeValid l) eqn:E.
    + wire shares_ty; tidy. rewrite <- shares_fit_is, E, andb_true_r. reflexivity.
    + rewrite <- shares_fit_is, E, andb_false_r. split; [discriminate|intros [H _]; discriminate].
  - unfold ks_retry_marshal. wire u16; tidy.
  - unfold ks_server_marshal. destruct (sizeValid k) eqn:E.
    + wire share_ty; tidy. rewrite <- share_fits_is, E. tidy.
    + rewrite <- share_fits_is, E, andb_false_r. split; [discriminate|intros [H _]; discriminate].
  - unfold list16_marshal. wire list16_ty; tidy.
  - unfold list16_marshal. wire list16_ty; tidy.
  - unfold psk_client_marshal. wire psk_client_ty; tidy.
  - unfold psk_server_marshal. wire u16; tidy.
  - unfold modes_marshal. eapply is_marshal; [eapply is_eq|reflexivity].
    + unfold modes_ty. apply is_struct. cbn [struct]. eapply is_cons; [reflexivity| |apply is_nil]. unfold vnums.
      eapply is_slice; [lia|lia|lia|]. intros a. now apply is_uint.
    + tidy.
    + tidy.
  - split; [intros H; apply Ok_inj in H; auto|intros [_ ->]; reflexivity].
  - unfold tedi_marshal. wire tedi_ty; tidy.
  - unfold alpn_marshal. eapply is_marshal; [eapply is_eq|reflexivity].
    + unfold alpn_ty. apply is_struct. cbn [struct]. eapply is_cons; [reflexivity| |apply is_nil].
      eapply is_slice; [lia|lia|lia|]. intros a. apply is_struct. cbn [struct]. repeat step_enc.
    + tidy. rewrite (forallb_same _ (sized 1 255)); [|intros a; tidy]. erewrite map_ext; [reflexivity|]. intros a. tidy.
    + tidy. erewrite map_ext; [reflexivity|]. intros a. tidy.
  - unfold versions_client_marshal. wire versions_ty; tidy.
  - unfold versions_server_marshal. destruct l as [|v l]; [split; [discriminate|intros [H _]; discriminate]|]. wire version_ty; tidy.
  - unfold cookie_marshal. wire cookie_ty; tidy.
Qed.
