(** Round trips of the typed messages and extensions, from the general theorems about package [syntax]. *)
From Verif Require Import Base Syntax SyntaxSpec SyntaxVarint SyntaxProofs SyntaxProofs2 SyntaxProofs3 SyntaxMain Crypto Messages.

(** ** Types made of integers, arrays, slices with a length header, and structs *)

Fixpoint solid (t : ty) : bool :=
  match t with
  | TUint _ | TSlice _ => true
  | TArray n t => negb (n =? 0)%nat && solid t
  | TStruct fs => solid_fields fs
  | _ => false
  end
with solid_fields (fs : fields) : bool :=
  match fs with FNil => false | FCons _ t fs => solid t || solid_fields fs end.

Fixpoint plain (t : ty) (o : fopts) : bool :=
  match t with
  | TUint _ => negb (varint o)
  | TArray _ t => plain t o
  | TSlice t => negb (omitHeader o) && negb (varintHeader o) && (headerSize o <=? 8)%Z && (0 <=? minSize o)%Z && solid t && plain t o
  | TStruct fs => plain_fields fs
  | _ => false
  end
with plain_fields (fs : fields) : bool :=
  match fs with FNil => true | FCons o t fs => negb (omit o) && plain t o && plain_fields fs end.

Ltac split_and := repeat match goal with H : _ && _ = true |- _ => apply andb_true_iff in H; destruct H end.
Ltac bools := split_and; repeat match goal with H : negb _ = true |- _ => apply negb_true_iff in H end.

Scheme ty_ind2 := Induction for ty Sort Prop with fields_ind2 := Induction for fields Sort Prop.
Combined Scheme ty_fields_ind' from ty_ind2, fields_ind2.

Lemma plain_solid :
  (forall t o, plain t o = true -> solid t = true -> nonempty t o) /\
  (forall fs, plain_fields fs = true -> solid_fields fs = true -> nonempty_fields fs).
Proof.
  apply ty_fields_ind'; simpl; intros; try discriminate; auto.
  - bools. split; auto. now apply Nat.eqb_neq.
  - bools. auto.
  - bools. apply orb_true_iff in H2. destruct H2; auto.
Qed.

Lemma plain_delimited :
  (forall t o l, plain t o = true -> delimited l t o) /\
  (forall fs l, plain_fields fs = true -> delimited_fields l fs).
Proof.
  apply ty_fields_ind'; simpl; intros; try discriminate; auto.
  - bools. split; auto. congruence.
  - bools. split; auto.
Qed.
Lemma plain_elems :
  (forall t o, plain t o = true -> elems_nonempty t o) /\
  (forall fs, plain_fields fs = true -> elems_nonempty_fields fs).
Proof.
  apply ty_fields_ind'; simpl; intros; try discriminate; auto.
  - bools. split; auto. now apply plain_solid.
  - bools. split; auto.
Qed.
Lemma plain_lawful :
  (forall t o, plain t o = true -> lawful t /\ prefix_reader t) /\
  (forall fs, plain_fields fs = true -> lawful_fields fs /\ prefix_reader_fields fs).
Proof.
  apply ty_fields_ind'; simpl; intros; try discriminate; auto.
  - eauto.
  - bools. eauto.
  - bools. destruct (H o); auto. destruct H0; auto.
Qed.
Lemma plain_optional :
  (forall t o, plain t o = true -> no_optional t o) /\
  (forall fs, plain_fields fs = true -> no_optional_fields fs).
Proof.
  apply ty_fields_ind'; simpl; intros; try discriminate; auto.
  - bools. split; auto. now apply Z.leb_le.
  - bools. split; auto.
Qed.
Lemma plain_fixed :
  (forall t o, plain t o = true -> fixed_form t o) /\
  (forall fs, plain_fields fs = true -> fixed_form_fields fs).
Proof.
  apply ty_fields_ind'; simpl; intros; try discriminate; auto.
  - now apply negb_true_iff.
  - bools. split; auto. intros _. split; auto. now apply Z.leb_le.
  - bools. split; auto.
Qed.
Lemma plain_fit :
  (forall t o, plain t o = true -> forall v, varints_fit t o v) /\
  (forall fs, plain_fields fs = true -> forall l, varints_fit_fields fs l).
Proof.
  apply ty_fields_ind'; simpl; intros; try discriminate; auto.
  - destruct v; auto. apply negb_true_iff in H. congruence.
  - destruct v; auto. apply Forall_forall. auto.
  - bools. destruct v; auto. apply Forall_forall. auto.
  - destruct v; auto.
  - destruct l; auto. bools. split; auto.
Qed.

Lemma map_id_in {A} (f : A -> A) l : Forall (fun x => f x = x) l -> map f l = l.
Proof. induction 1; simpl; congruence. Qed.

Lemma plain_visible :
  (forall t o, plain t o = true -> forall v, encodable t o v -> visible t v = v) /\
  (forall fs, plain_fields fs = true -> forall l, encodable_fields fs l -> visibles fs l = l).
Proof.
  apply ty_fields_ind'; simpl; intros; try discriminate; auto.
  - destruct v; try contradiction. f_equal. apply map_id_in. eapply Forall_impl; [|apply H1]. eauto.
  - destruct v; try contradiction. f_equal. bools. apply map_id_in. eapply Forall_impl; [|apply H1]. eauto.
  - destruct v; try contradiction. f_equal. auto.
  - destruct l; try contradiction. bools. rewrite H1. destruct H2. f_equal; eauto.
Qed.

Lemma plain_veq :
  (forall t o, plain t o = true -> forall v w, encodable t o v -> veq v w -> v = w) /\
  (forall fs, plain_fields fs = true -> forall l m, encodable_fields fs l -> Forall2 veq l m -> l = m).
Proof.
  assert (L : forall (P : val -> Prop) l m, Forall P l -> (forall v w, P v -> veq v w -> v = w) -> Forall2 veq l m -> l = m).
  { intros P l m F H E. induction E; auto. inversion F; subst. f_equal; auto. }
  apply ty_fields_ind'; simpl; intros; try discriminate; auto.
  - destruct v; try contradiction. now inversion H1.
  - destruct v; try contradiction. inversion H2; subst. f_equal. destruct H1. eapply L; eauto.
  - bools. destruct v; try contradiction. inversion H2; subst. f_equal. destruct H1. eapply L; eauto.
  - destruct v; try contradiction. inversion H2; subst. f_equal. auto.
  - inversion H1; subst; auto. contradiction.
  - bools. inversion H3; subst; [contradiction|]. destruct H2. f_equal; eauto.
Qed.

(** *** The consequences *)
Lemma plain_round_trip t v b tail fuel :
  plain t null_opts = true -> len b < 2 ^ 63 -> marshal t v = Ok b -> (List.length (b ++ tail) <= fuel)%nat ->
  unmarshal fuel t (b ++ tail) = Ok (v, List.length b).
Proof.
  intros P Hb H Hf.
  destruct (main_round_trip t v b tail fuel) as (v' & E & V); auto;
    try (now apply plain_delimited); try (now apply plain_elems); try (now apply (proj1 plain_lawful) with null_opts); try (now apply plain_fit).
  pose proof (marshal_inv _ _ _ H) as [Hv _].
  assert (En : encodable t null_opts v) by (apply (proj1 (main_limits t v Hv)); eauto).
  rewrite (proj1 plain_visible t null_opts P v En) in V.
  now rewrite (proj1 plain_veq t null_opts P v v' En V).
Qed.
Lemma plain_canonical t fuel data v n :
  plain t null_opts = true -> unmarshal fuel t data = Ok (v, n) -> marshal t v = Ok (firstn n data).
Proof. intros P. apply main_canonical. now apply plain_fixed. Qed.
Lemma plain_encodable t fuel data v n :
  plain t null_opts = true -> unmarshal fuel t data = Ok (v, n) -> encodable t null_opts v /\ (n <= List.length data)%nat.
Proof.
  intros P H. split; [eapply main_unmarshal_limits; [|eauto]; now apply plain_fixed|].
  eapply main_prefix; [| |eauto]; [now apply (proj1 plain_lawful) with null_opts|now apply plain_delimited].
Qed.
Lemma plain_total t data :
  plain t null_opts = true -> is_ok (unmarshal (List.length data) t data) \/ is_err (unmarshal (List.length data) t data).
Proof.
  intros P. pose proof (main_no_panic t (List.length data) data (proj1 plain_optional _ _ P)).
  pose proof (main_terminates t (List.length data) data (proj1 plain_elems _ _ P) (le_n _)).
  destruct (unmarshal _ _ _); try congruence; [left|right]; eexists; reflexivity.
Qed.

(** *** Sizes *)
Fixpoint maxwire (t : ty) (o : fopts) : N :=
  match t with
  | TUint s => N.of_nat (usz s)
  | TArray n t => N.of_nat n * maxwire t o
  | TSlice _ => Z.to_N (headerSize o) + Z.to_N (256 ^ headerSize o)
  | TStruct fs => maxwires fs
  | _ => 0
  end
with maxwires (fs : fields) : N := match fs with FNil => 0 | FCons o t fs => maxwire t o + maxwires fs end.
Lemma sum_bound {A} (f : A -> N) m l : Forall (fun x => f x <= m) l -> sumN (map f l) <= len l * m.
Proof.
  induction 1 as [|x l Hx _ IH]; [apply N.le_0_l|]. change (f x + sumN (map f l) <= len (x :: l) * m).
  rewrite len_cons, N.mul_add_distr_r. lia.
Qed.
Lemma plain_size :
  (forall t o, plain t o = true -> forall v, encodable t o v -> wire_size t o v <= maxwire t o) /\
  (forall fs, plain_fields fs = true -> forall l, encodable_fields fs l -> wire_sizes fs l <= maxwires fs).
Proof.
  apply ty_fields_ind'; simpl; intros; try discriminate; auto.
  - destruct v; try contradiction. apply negb_true_iff in H. rewrite H. lia.
  - destruct v; try contradiction. destruct H1 as [<- F]. apply (sum_bound (wire_size t o)). eapply Forall_impl; [|exact F]. simpl. eauto.
  - bools. destruct v; try contradiction. destruct H1 as [(_ & _ & _ & W) _]. destruct (W ltac:(assumption) ltac:(assumption)) as [W1 W2].
    unfold header_len. repeat match goal with E : _ = false |- _ => rewrite E; clear E end. cbv iota. lia.
  - destruct v; try contradiction. auto.
  - destruct l; try contradiction. bools. destruct H2 as [Ha Hb]. rewrite H1. specialize (H o ltac:(assumption) v (Ha H1)). specialize (H0 ltac:(assumption) l Hb). lia.
Qed.
Definition small (t : ty) : bool := plain t null_opts && (maxwire t null_opts <? 2 ^ 63).
Lemma small_size t v b : small t = true -> marshal t v = Ok b -> plain t null_opts = true /\ len b < 2 ^ 63.
Proof.
  intros S H. unfold small in S. apply andb_true_iff in S. destruct S as [P M]. split; auto. apply N.ltb_lt in M.
  pose proof (marshal_inv _ _ _ H) as [Hv _]. destruct (main_limits t v Hv) as (L1 & _ & L2).
  rewrite (L2 _ H). eapply N.le_lt_trans; [|exact M]. apply plain_size; auto. apply L1. eauto.
Qed.

(** ** Conversions *)

Lemma bytes_of_vbytes b : bytes_of (vbytes b) = b.
Proof. unfold bytes_of, vbytes. simpl. rewrite map_map. simpl. erewrite map_ext; [apply map_id|]. intros; apply b8_bN. Qed.
Lemma nums_of_vnums l : nums_of (vnums l) = l.
Proof. unfold nums_of, vnums. simpl. rewrite map_map. simpl. apply map_id. Qed.
Lemma map_back {A} (to : A -> val) (of : val -> A) l : (forall a, of (to a) = a) -> map of (map to l) = l.
Proof. intros H. rewrite map_map. erewrite map_ext; [apply map_id|]. auto. Qed.
Lemma ext_of_vext e : ext_of (vext e) = e.
Proof. destruct e. unfold ext_of, vext, field. cbn [elems nth]. now rewrite bytes_of_vbytes. Qed.
Lemma exts_of_vexts l : exts_of (vexts l) = l.
Proof. apply map_back, ext_of_vext. Qed.
Lemma share_of_vshare k : share_of (vshare k) = k.
Proof. destruct k. unfold share_of, vshare, field. cbn [elems nth]. now rewrite bytes_of_vbytes. Qed.
Lemma pskid_of_vpskid p : pskid_of (vpskid p) = p.
Proof. destruct p. unfold pskid_of, vpskid, field. cbn [elems nth]. now rewrite bytes_of_vbytes. Qed.
Lemma binder_of_vbinder b : binder_of (vbinder b) = b.
Proof. unfold binder_of, vbinder, field. cbn [elems nth]. apply bytes_of_vbytes. Qed.
Lemma ce_of_vce c : ce_of (vce c) = c.
Proof. destruct c. unfold ce_of, vce, field. cbn [elems nth]. now rewrite bytes_of_vbytes, exts_of_vexts. Qed.

Lemma decoded_back {A} t (to : A -> val) (of : val -> A) a b :
  small t = true -> of (to a) = a -> marshal t (to a) = Ok b ->
  decoded t of b = Ok (a, List.length b).
Proof.
  intros S O H. destruct (small_size _ _ _ S H) as [P Hb]. unfold decoded. rewrite <- (app_nil_r b) at 2.
  rewrite (plain_round_trip t (to a) b []); auto; [|now rewrite app_nil_r]. simpl. now rewrite O.
Qed.
Lemma unmarshal_back t v b :
  small t = true -> marshal t v = Ok b -> unmarshal (List.length b) t b = Ok (v, List.length b).
Proof.
  intros S H. destruct (small_size _ _ _ S H) as [P Hb]. rewrite <- (app_nil_r b) at 2. apply plain_round_trip; auto. now rewrite app_nil_r.
Qed.
Lemma safe_ok {A} (un : bytes -> res (A * nat)) a b : un b = Ok (a, List.length b) -> safeUnmarshal un b = Ok a.
Proof. intros H. unfold safeUnmarshal. rewrite H. simpl. now rewrite Nat.eqb_refl. Qed.

Ltac back := cbv [field]; cbn [elems nth num_of]; rewrite ?bytes_of_vbytes, ?nums_of_vnums, ?exts_of_vexts; try reflexivity.

(** ** Messages *)

Lemma ch_tls_back c b version : ch_version c = tls12Version -> version <> dtls12WireVersion ->
  ch_marshal c = Ok b ->
  ch_unmarshal version b = Ok (mkCh (ch_version c) (ch_random c) [] (ch_suites c) (ch_exts c), List.length b).
Proof.
  intros V W H. unfold ch_marshal in H. rewrite V in H. change (tls12Version =? tls12Version) with true in H. cbv iota in H.
  unfold ch_unmarshal. apply N.eqb_neq in W. rewrite W. cbv iota zeta. cbn [negb].
  rewrite (unmarshal_back ch_ty _ _ eq_refl H). cbn [bind]. back. cbn [beqb negb Byte.eqb andb]. rewrite V. reflexivity.
Qed.
Lemma ch_dtls_back c b : ch_version c <> tls12Version -> ch_marshal c = Ok b ->
  ch_unmarshal dtls12WireVersion b = Ok (mkCh (ch_version c) (ch_random c) [] (ch_suites c) (ch_exts c), List.length b).
Proof.
  intros V H. unfold ch_marshal in H. apply N.eqb_neq in V. rewrite V in H. cbv iota in H.
  unfold ch_unmarshal. rewrite N.eqb_refl. cbv iota zeta. cbn [negb].
  rewrite (unmarshal_back ch_dtls_ty _ _ eq_refl H). cbn [bind]. back.
Qed.
Lemma sh_back s b : sh_marshal s = Ok b -> sh_unmarshal b = Ok (s, List.length b).
Proof.
  intros H. unfold sh_marshal in H. eapply decoded_back with (to := fun s => VList _); [reflexivity| |exact H].
  destruct s. back.
Qed.
Lemma ee_back l b : ee_marshal l = Ok b -> ee_unmarshal b = Ok (l, List.length b).
Proof.
  intros H. eapply decoded_back with (to := fun l => VList [vexts l]); [reflexivity| |exact H]. back.
Qed.
Lemma cert_back parses c b : forallb (fun e => parses (ce_cert e)) (ct_list c) = true ->
  cert_marshal c = Ok b -> cert_unmarshal parses b = Ok (c, List.length b).
Proof.
  intros P H. unfold cert_unmarshal.
  rewrite (decoded_back cert_ty (fun c => VList [vbytes (ct_context c); VList (map vce (ct_list c))]) _ c); auto.
  - cbn [bind]. now rewrite P.
  - destruct c. back. now rewrite (map_back _ _ _ ce_of_vce).
Qed.
Lemma cv_back c b : cv_marshal c = Ok b -> cv_unmarshal b = Ok (c, List.length b).
Proof.
  intros H. eapply decoded_back with (to := fun c => VList [VUint (cv_alg c); vbytes (cv_sig c)]); [reflexivity| |exact H].
  destruct c. back.
Qed.
Lemma cr_back c b : cr_marshal c = Ok b -> cr_unmarshal b = Ok (c, List.length b).
Proof.
  intros H. eapply decoded_back with (to := fun c => VList [vbytes (cr_context c); vexts (cr_exts c)]); [reflexivity| |exact H].
  destruct c. back.
Qed.
Lemma tkt_back t b : tkt_marshal t = Ok b -> tkt_unmarshal b = Ok (t, List.length b).
Proof.
  intros H. eapply decoded_back with (to := fun t => VList [VUint (tk_lifetime t); VUint (tk_ageAdd t); vbytes (tk_nonce t); vbytes (tk_ticket t); vexts (tk_exts t)]);
    [reflexivity| |exact H]. destruct t. back.
Qed.
Lemma ku_back r b : ku_marshal r = Ok b -> ku_unmarshal b = Ok (r, List.length b).
Proof.
  intros H. eapply decoded_back with (to := fun r => VList [VUint r]); [reflexivity| |exact H]. back.
Qed.
Lemma fin_back n d b : fin_marshal n d = Ok b -> b = d /\ n = List.length b /\ fin_unmarshal (List.length b) b = Ok (d, List.length b).
Proof.
  unfold fin_marshal, fin_unmarshal. destruct (Nat.eqb_spec (List.length d) n); [|discriminate]. cbn [negb]. intros H. apply Ok_inj in H. subst.
  repeat split. rewrite Nat.ltb_irrefl, firstn_all. reflexivity.
Qed.

(** ** Extensions *)

Lemma sni_back n b : sni_marshal n = Ok b -> sni_unmarshal b = Ok (n, List.length b).
Proof. intros H. unfold sni_unmarshal. rewrite (unmarshal_back sni_ty _ _ eq_refl H). cbn [bind]. back. Qed.
Lemma list16_back l b : list16_marshal l = Ok b -> list16_unmarshal b = Ok (l, List.length b).
Proof. intros H. eapply decoded_back with (to := fun l => VList [vnums l]); [reflexivity| |exact H]. back. Qed.
Lemma ks_client_back l b : ks_client_marshal l = Ok b -> ks_client_unmarshal b = Ok (l, List.length b).
Proof.
  unfold ks_client_marshal. destruct (forallb sizeValid l) eqn:E; [|discriminate]. intros H. unfold ks_client_unmarshal.
  rewrite (decoded_back shares_ty (fun l => VList [VList (map vshare l)]) _ l); auto.
  - cbn [bind]. now rewrite E.
  - back. now apply map_back, share_of_vshare.
Qed.
Lemma u16_back i b : marshal (TStruct (struct [(null_opts, u16)])) (VList [VUint i]) = Ok b ->
  decoded (TStruct (struct [(null_opts, u16)])) (fun v => num_of (field v 0)) b = Ok (i, List.length b).
Proof. intros H. eapply decoded_back with (to := fun i => VList [VUint i]); [reflexivity| |exact H]. back. Qed.
Lemma ks_server_back k b : ks_server_marshal k = Ok b -> ks_server_unmarshal b = Ok (k, List.length b).
Proof.
  unfold ks_server_marshal. destruct (sizeValid k) eqn:E; [|discriminate]. intros H. unfold ks_server_unmarshal.
  rewrite (decoded_back (TStruct (struct [(null_opts, share_ty)])) (fun k => VList [vshare k]) _ k); auto.
  - cbn [bind]. now rewrite E.
  - apply share_of_vshare.
Qed.
Lemma psk_client_back ids bs b : List.length ids = List.length bs ->
  psk_client_marshal ids bs = Ok b -> psk_client_unmarshal b = Ok ((ids, bs), List.length b).
Proof.
  intros L H. unfold psk_client_unmarshal.
  rewrite (decoded_back psk_client_ty (fun p : list pskid * list bytes => VList [VList (map vpskid (fst p)); VList (map vbinder (snd p))]) _ (ids, bs)); auto.
  - cbn [bind]. now rewrite L, Nat.eqb_refl.
  - cbn [fst snd]. back. f_equal; [apply map_back, pskid_of_vpskid|apply map_back, binder_of_vbinder].
Qed.
Lemma modes_back l b : modes_marshal l = Ok b -> modes_unmarshal b = Ok (l, List.length b).
Proof. intros H. eapply decoded_back with (to := fun l => VList [vnums l]); [reflexivity| |exact H]. back. Qed.
Lemma tedi_back i b : tedi_marshal i = Ok b -> tedi_unmarshal b = Ok (i, List.length b).
Proof. intros H. eapply decoded_back with (to := fun i => VList [VUint i]); [reflexivity| |exact H]. back. Qed.
Lemma alpn_back l b : alpn_marshal l = Ok b -> alpn_unmarshal b = Ok (l, List.length b).
Proof.
  intros H. eapply decoded_back with (to := fun l => VList [VList (map (fun p => VList [vbytes p]) l)]); [reflexivity| |exact H].
  back. apply map_back. intros. back.
Qed.
Lemma versions_client_back l b : versions_client_marshal l = Ok b -> versions_client_unmarshal b = Ok (l, List.length b).
Proof. intros H. eapply decoded_back with (to := fun l => VList [vnums l]); [reflexivity| |exact H]. back. Qed.
Lemma versions_server_back v l b : versions_server_marshal (v :: l) = Ok b -> versions_server_unmarshal b = Ok ([v], List.length b).
Proof.
  intros H. unfold versions_server_unmarshal. unfold versions_server_marshal in H.
  unfold decoded. rewrite (unmarshal_back version_ty _ _ eq_refl H). reflexivity.
Qed.
Lemma cookie_back c b : cookie_marshal c = Ok b -> cookie_unmarshal b = Ok (c, List.length b).
Proof. intros H. eapply decoded_back with (to := fun c => VList [vbytes c]); [reflexivity| |exact H]. back. Qed.
