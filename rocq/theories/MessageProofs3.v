(** Extension lists, conversion of handshake messages, truncation for binders. *)
From Verif Require Import Base Syntax Crypto Messages MessageProofs MessageSpec MessageProofs2.

(** ** Extension lists *)

Definition of_type (t : N) (l : list ext) : list ext := filter (fun e => e_type e =? t) l.

Lemma replace_split l t d : match el_replace l t d with
  | Some l' => exists a e b, l = a ++ e :: b /\ l' = a ++ mkExt t d :: b /\ e_type e = t /\ of_type t a = []
  | None => of_type t l = []
  end.
Proof.
  induction l as [|e l IH]; [reflexivity|]. cbn [el_replace]. destruct (N.eqb_spec (e_type e) t) as [E|E].
  - exists [], e, l. rewrite E. auto.
  - destruct (el_replace l t d) as [l'|]; cbn [option_map].
    + destruct IH as (a & e' & b & -> & -> & H1 & H2). exists (e :: a), e', b. cbn [app of_type filter]. apply N.eqb_neq in E. rewrite E. auto.
    + cbn [of_type filter]. apply N.eqb_neq in E. now rewrite E.
Qed.
Lemma add_split l t r l' : el_add l t r = Ok l' -> exists d, r = Ok d /\
  ((of_type t l = [] /\ l' = l ++ [mkExt t d]) \/ exists a e b, l = a ++ e :: b /\ l' = a ++ mkExt t d :: b /\ e_type e = t /\ of_type t a = []).
Proof.
  intros H. unfold el_add in H. destruct r as [d|e| |]; try discriminate. cbn [bind] in H. apply Ok_inj in H. subst l'. exists d. split; [reflexivity|].
  pose proof (replace_split l t d) as G. destruct (el_replace l t d); auto.
Qed.
Lemma find_app {A} a b t (un : bytes -> res (A * nat)) : of_type t a = [] -> el_find (a ++ b) t un = el_find b t un.
Proof.
  induction a as [|e a IH]; [reflexivity|]. cbn [of_type filter app el_find]. destruct (_ =? _); [discriminate|]. exact IH.
Qed.
Theorem add_find {A} l t d l' (un : bytes -> res (A * nat)) : el_add l t (Ok d) = Ok l' -> el_find l' t un = Some (safeUnmarshal un d).
Proof.
  intros H. apply add_split in H. destruct H as (d' & Hd & H). apply Ok_inj in Hd. subst d'.
  destruct H as [[H ->]|(a & e & b & -> & -> & E & H)]; rewrite find_app by exact H; cbn [el_find e_type e_data]; now rewrite N.eqb_refl.
Qed.
Theorem add_others l t r l' t' : el_add l t r = Ok l' -> t' <> t -> of_type t' l' = of_type t' l.
Proof.
  intros H Ht. apply add_split in H. destruct H as (d & _ & H). apply N.eqb_neq in Ht. rewrite N.eqb_sym in Ht.
  destruct H as [[H ->]|(a & e & b & -> & -> & E & H)]; unfold of_type; rewrite !filter_app; cbn [filter e_type].
  - rewrite Ht. apply app_nil_r.
  - now rewrite E, Ht.
Qed.
Lemma find_of_type {A} l t (un : bytes -> res (A * nat)) : el_find l t un = match of_type t l with [] => None | e :: _ => Some (safeUnmarshal un (e_data e)) end.
Proof. induction l as [|e l IH]; [reflexivity|]. cbn [el_find of_type filter]. destruct (_ =? _); [reflexivity|exact IH]. Qed.
Theorem add_find_others {A} l t r l' t' (un : bytes -> res (A * nat)) : el_add l t r = Ok l' -> t' <> t -> el_find l' t' un = el_find l t' un.
Proof. intros H Ht. rewrite !find_of_type. now rewrite (add_others _ _ _ _ _ H Ht). Qed.
Theorem add_unique l t d l' : el_add l t (Ok d) = Ok l' -> NoDup (map e_type l) -> NoDup (map e_type l') /\ of_type t l' = [mkExt t d].
Proof.
  intros H ND. apply add_split in H. destruct H as (d' & Hd & H). apply Ok_inj in Hd. subst d'.
  assert (Hn : forall l, of_type t l = [] <-> ~ In t (map e_type l)).
  { intros m. induction m as [|e m IH]; [cbn; tauto|]. cbn [of_type filter map In]. destruct (N.eqb_spec (e_type e) t); [split; [discriminate|tauto]|]. unfold of_type in IH. tauto. }
  destruct H as [[H ->]|(a & e & b & -> & -> & E & H)].
  - rewrite map_app. cbn [map e_type]. split.
    + apply NoDup_Add with (a := t) (l := map e_type l); [|split; [exact ND|now apply Hn]].
      rewrite <- (app_nil_r (map e_type l)) at 1. apply Add_app.
    + unfold of_type in *. rewrite filter_app, H. cbn [app filter e_type]. now rewrite N.eqb_refl.
  - rewrite map_app in *. cbn [map e_type] in *. rewrite E in ND. split; [exact ND|].
    apply NoDup_remove in ND. destruct ND as [_ ND]. assert (Hb : of_type t b = []) by (apply Hn; intros X; apply ND, in_or_app; auto).
    unfold of_type in *. rewrite filter_app, H. cbn [app filter e_type]. now rewrite N.eqb_refl, Hb.
Qed.

(** [Parse] *)
Section Parse.
Context {S : Type}.
Lemma parse_one_spec l t (un : S -> bytes -> res S) : forall found s found' s', el_parse_one l t un found s = Ok (found', s') ->
  (forall t', t' <> t -> In t' found' <-> In t' found) /\ (In t found' <-> In t found \/ of_type t l <> []) /\
  (List.length (of_type t l) <= 1)%nat /\ (In t found -> of_type t l = []).
Proof.
  induction l as [|e l IH]; intros found s found' s' H; cbn [el_parse_one] in H.
  - injection H as <- <-. cbn [of_type filter List.length]. split; [tauto|]. split; [tauto|]. split; [lia|auto].
  - cbn [of_type filter]. destruct (N.eqb_spec (e_type e) t) as [E|E].
    + destruct (existsb (N.eqb t) found) eqn:Ex; [discriminate|]. destruct (un s (e_data e)) as [s1|?| |]; try discriminate. cbn [bind] in H.
      apply IH in H. destruct H as (H1 & H2 & H3 & H4). specialize (H4 (or_introl eq_refl)). unfold of_type in H4. rewrite H4. split; [|split; [|split]].
      * intros t' Ht. rewrite H1 by exact Ht. cbn [In]. split; [intros [?|?]; congruence|auto].
      * rewrite H2. cbn [In]. split; [intros; right; discriminate|auto].
      * cbn. lia.
      * intros Hf. exfalso. assert (G : existsb (N.eqb t) found = true) by (apply existsb_exists; exists t; split; [exact Hf|apply N.eqb_refl]). congruence.
    + apply IH in H. exact H.
Qed.
Theorem parse_spec l (dsts : list (N * (S -> bytes -> res S))) s found s' : el_parse l dsts s = Ok (found, s') ->
  forall t, (In t found <-> In t (map fst dsts) /\ In t (map e_type l)) /\ (In t (map fst dsts) -> (List.length (of_type t l) <= 1)%nat).
Proof.
  unfold el_parse. intros H t.
  assert (Hn : of_type t l <> [] <-> In t (map e_type l)).
  { clear. induction l as [|e m IH]; [cbn; tauto|]. cbn [of_type filter map In]. destruct (N.eqb_spec (e_type e) t); [split; [auto|discriminate]|]. unfold of_type in IH. tauto. }
  assert (G : (In t found <-> In t [] \/ In t (map fst dsts) /\ of_type t l <> []) /\ (In t (map fst dsts) -> (List.length (of_type t l) <= 1)%nat)).
  { revert s found s' H. generalize (@nil N). induction dsts as [|[t1 un] dsts IH]; intros f0 s found s' H; cbn [el_parse_all map fst] in *.
    - injection H as <- <-. cbn [In]. tauto.
    - destruct (el_parse_one l t1 un f0 s) as [[f1 s1]|?| |] eqn:E; try discriminate. cbn [bind] in H.
      destruct (IH _ _ _ _ H) as [I1 I2]. apply parse_one_spec in E. destruct E as (E1 & E2 & E3 & E4). cbn [In].
      destruct (N.eq_dec t t1) as [Et|Ht]; [subst t1|specialize (E1 t Ht)]; (split; [|tauto || (intros [?|?]; [congruence|auto])]).
      + tauto.
      + split; [intros X; tauto|intros [?|[[?|?] ?]]; [tauto|congruence|tauto]]. }
  rewrite <- Hn. destruct G as [G1 G2]. split; [|exact G2]. rewrite G1. cbn [In]. tauto.
Qed.
End Parse.

(** ** Typed extensions *)

(** One binder for each identity; a single version in a server's supported_versions. *)
Definition proper (x : extbody) : Prop :=
  match x with XPskClient ids bs => List.length ids = List.length bs | XVersionsServer l => List.length l = 1%nat | _ => True end.
Theorem xb_back x b : proper x -> xb_marshal x = Ok b -> xb_unmarshal x b = Ok (x, List.length b).
Proof.
  destruct x; cbn [proper xb_marshal xb_unmarshal]; intros P H.
  - now rewrite (sni_back _ _ H).
  - now rewrite (ks_client_back _ _ H).
  - unfold ks_retry_unmarshal. now rewrite (u16_back _ _ H).
  - now rewrite (ks_server_back _ _ H).
  - now rewrite (list16_back _ _ H).
  - now rewrite (list16_back _ _ H).
  - now rewrite (psk_client_back _ _ _ P H).
  - unfold psk_server_unmarshal. now rewrite (u16_back _ _ H).
  - now rewrite (modes_back _ _ H).
  - apply Ok_inj in H. subst b. reflexivity.
  - now rewrite (tedi_back _ _ H).
  - now rewrite (alpn_back _ _ H).
  - now rewrite (versions_client_back _ _ H).
  - destruct l as [|v [|? ?]]; try discriminate. now rewrite (versions_server_back _ _ _ H).
  - now rewrite (cookie_back _ _ H).
Qed.
Theorem add_typed l x l' : proper x -> el_add l (xb_type x) (xb_marshal x) = Ok l' -> el_find l' (xb_type x) (xb_unmarshal x) = Some (Ok x).
Proof.
  intros P H. pose proof (add_split _ _ _ _ H) as (d & Hd & _). rewrite Hd in H. rewrite (add_find _ _ _ _ _ H).
  f_equal. apply safe_ok. now apply xb_back.
Qed.

(** ** Messages *)

(** Certificates are parsed ones; a ClientHello has the version of TLS and no session id. *)
Definition receivable (parses : bytes -> bool) (b : body) : Prop :=
  match b with
  | BClientHello c => ch_version c = 0x0303 /\ ch_session c = []
  | BCertificate c => forallb (fun e => parses (ce_cert e)) (ct_list c) = true
  | _ => True
  end.
Theorem body_back parses x b : receivable parses x -> body_marshal x = Ok b -> toBody parses (body_type x) b = Ok x.
Proof.
  destruct x; cbn [receivable body_marshal body_type]; intros R H;
    match goal with |- toBody _ ?t _ = _ => unfold t, toBody; cbn [Byte.eqb] end; cbv beta.
  - destruct R as [V E]. change (Byte.eqb x01 htClientHello) with true. cbv iota.
    rewrite (safe_ok _ _ _ (ch_tls_back c b 0 V ltac:(discriminate) H)). cbn [bind]. rewrite <- E. now destruct c.
  - cbn. rewrite (safe_ok _ _ _ (sh_back _ _ H)). reflexivity.
  - cbn. rewrite (safe_ok _ _ _ (ee_back _ _ H)). reflexivity.
  - cbn. rewrite (safe_ok _ _ _ (cert_back parses _ _ R H)). reflexivity.
  - cbn. rewrite (safe_ok _ _ _ (cr_back _ _ H)). reflexivity.
  - cbn. rewrite (safe_ok _ _ _ (cv_back _ _ H)). reflexivity.
  - destruct (fin_back _ _ _ H) as (-> & -> & F). cbn. rewrite (safe_ok _ _ _ F). reflexivity.
  - cbn. rewrite (safe_ok _ _ _ (tkt_back _ _ H)). reflexivity.
  - cbn. rewrite (safe_ok _ _ _ (ku_back _ _ H)). reflexivity.
  - apply Ok_inj in H. subst b. reflexivity.
Qed.
Theorem ch_dtls_safe c b : ch_version c <> 0x0303 -> ch_session c = [] -> ch_marshal c = Ok b -> safeUnmarshal (ch_unmarshal 0xfefd) b = Ok c.
Proof. intros V E H. change 0xfefd with dtls12WireVersion. rewrite (safe_ok _ _ _ (ch_dtls_back c b V H)). rewrite <- E. now destruct c. Qed.

(** ** Truncation *)

Lemma truncated_form c front e ids bs body : ch_exts c = front ++ [mkExt etPreSharedKey e] -> psk_client_marshal ids bs = Ok e -> List.length ids = List.length bs ->
  ch_marshal c = Ok body ->
  let cut := firstn (List.length (tls_message htClientHello body) - List.length (vector 2 (binders_wire bs))) (tls_message htClientHello body) in
  ch_truncated c = Ok cut /\ tls_message htClientHello body = cut ++ vector 2 (binders_wire bs) /\
  cut = [htClientHello] ++ be 3 (len body) ++ be 2 (ch_version c) ++ ch_random c ++ vector 1 [] ++ (if ch_version c =? 0x0303 then [] else vector 1 []) ++
    vector 2 (nums16 (ch_suites c)) ++ vector 1 [x00] ++ be 2 (len (exts_wire front) + 4 + len e) ++ exts_wire front ++
    be 2 etPreSharedKey ++ be 2 (len e) ++ vector 2 (pskids_wire ids).
Proof.
  intros Hx He Hl Hb. cbv zeta. pose proof (proj1 (xb_is (XPskClient ids bs) e) He) as [Hf Ew]. cbn [xb_fits xb_wire] in *.
  pose proof (proj1 (ch_is c body) Hb) as [Hc Eb].
  assert (Em : tls_message htClientHello body = ([htClientHello] ++ be 3 (len body) ++ be 2 (ch_version c) ++ ch_random c ++ vector 1 [] ++ (if ch_version c =? 0x0303 then [] else vector 1 []) ++
    vector 2 (nums16 (ch_suites c)) ++ vector 1 [x00] ++ be 2 (len (exts_wire front) + 4 + len e) ++ exts_wire front ++
    be 2 etPreSharedKey ++ be 2 (len e) ++ vector 2 (pskids_wire ids)) ++ vector 2 (binders_wire bs)).
  { unfold tls_message. rewrite <- !app_assoc. do 2 f_equal. rewrite Eb. unfold ch_wire. do 6 f_equal.
    rewrite Hx. unfold exts_wire at 1. rewrite map_app, concat_app. cbn [map concat]. fold (exts_wire front). rewrite app_nil_r.
    unfold ext_wire. cbn [e_type e_data]. unfold vector at 1.
    assert (El : len (exts_wire front ++ be 2 etPreSharedKey ++ vector 2 e) = len (exts_wire front) + 4 + len e).
    { unfold vector, len. rewrite !app_length, !be_length. lia. }
    rewrite El. unfold vector at 1. rewrite Ew at 3. rewrite ?app_assoc. reflexivity. }
  set (A := [htClientHello] ++ _) in *. clearbody A. split; [|].
  - unfold ch_truncated. rewrite Hx, rev_app_distr. cbn [rev app e_type e_data]. rewrite N.eqb_refl. cbn [negb]. rewrite Hb. cbn [bind].
    rewrite (psk_client_back _ _ _ Hl He). cbn [bind].
    assert (Ebd : marshal binders_ty (VList [VList (map vbinder bs)]) = Ok (vector 2 (binders_wire bs))).
    { eapply is_marshal; [eapply is_eq; [unfold binders_ty; repeat step_enc|reflexivity|reflexivity]|reflexivity|].
      split; [|now rewrite app_nil_r]. tidy. unfold binders_wire in Hf. split_and. apply andb_true_iff. split; assumption. }
    rewrite Ebd. rewrite Em. rewrite (proj2 (Nat.ltb_ge _ _)) by (rewrite app_length; lia). reflexivity.
  - rewrite Em. rewrite app_length, Nat.add_sub. rewrite firstn_app, Nat.sub_diag, firstn_all. cbn [firstn]. rewrite app_nil_r. split; reflexivity.
Qed.
Theorem truncated_prefix c front e ids bs body : ch_exts c = front ++ [mkExt etPreSharedKey e] -> psk_client_marshal ids bs = Ok e -> List.length ids = List.length bs ->
  ch_marshal c = Ok body -> exists pre, ch_truncated c = Ok pre /\ tls_message htClientHello body = pre ++ vector 2 (binders_wire bs).
Proof. intros H1 H2 H3 H4. destruct (truncated_form _ _ _ _ _ _ H1 H2 H3 H4) as (G1 & G2 & _). eauto. Qed.
Definition with_exts (c : clientHello) (l : list ext) : clientHello := mkCh (ch_version c) (ch_random c) (ch_session c) (ch_suites c) l.
Lemma binders_len bs bs' : Forall2 (fun a b : bytes => len a = len b) bs bs' -> len (binders_wire bs) = len (binders_wire bs').
Proof.
  unfold binders_wire, len. induction 1 as [|a b l m H HF IH]; [reflexivity|]. cbn [map concat]. unfold vector in *. rewrite !app_length, !be_length. unfold len in H. lia.
Qed.
Theorem truncated_same c front ids bs bs' e e' body : Forall2 (fun a b : bytes => len a = len b) bs bs' ->
  psk_client_marshal ids bs = Ok e -> psk_client_marshal ids bs' = Ok e' -> List.length ids = List.length bs ->
  ch_marshal (with_exts c (front ++ [mkExt etPreSharedKey e])) = Ok body ->
  ch_truncated (with_exts c (front ++ [mkExt etPreSharedKey e'])) = ch_truncated (with_exts c (front ++ [mkExt etPreSharedKey e])).
Proof.
  intros HF He He' Hl Hb.
  pose proof (proj1 (xb_is (XPskClient ids bs) e) He) as [_ Ee]. pose proof (proj1 (xb_is (XPskClient ids bs') e') He') as [_ Ee'].
  assert (Ele : len e' = len e).
  { rewrite Ee, Ee'. cbn [xb_wire]. pose proof (binders_len _ _ HF). unfold vector, len in *. rewrite !app_length, !be_length. lia. }
  assert (Hl' : List.length ids = List.length bs') by (rewrite Hl; clear - HF; induction HF; simpl; congruence).
  assert (Hx : len (exts_wire (front ++ [mkExt etPreSharedKey e'])) = len (exts_wire (front ++ [mkExt etPreSharedKey e]))).
  { unfold exts_wire. rewrite !map_app, !concat_app. cbn [map concat]. unfold ext_wire, vector, len in *. cbn [e_type e_data]. rewrite !app_length, !be_length. lia. }
  assert (Hb' : exists body', ch_marshal (with_exts c (front ++ [mkExt etPreSharedKey e'])) = Ok body' /\ len body' = len body).
  { apply ch_is in Hb. destruct Hb as [Hf ->]. eexists. split; [apply ch_is; split; [|reflexivity]|].
    - unfold ch_fits, exts_fit in *. cbn [with_exts ch_version ch_random ch_suites ch_exts] in *. rewrite forallb_app in *. cbn [forallb] in *.
      unfold ext_fits, sized in *. cbn [e_type e_data] in *. rewrite Hx, Ele. exact Hf.
    - unfold ch_wire. cbn [with_exts ch_version ch_random ch_suites ch_exts]. unfold len in *. rewrite !app_length. unfold vector. rewrite !app_length, !be_length. lia. }
  destruct Hb' as (body' & Hb' & Elb).
  destruct (truncated_form (with_exts c (front ++ [mkExt etPreSharedKey e])) front e ids bs body eq_refl He Hl Hb) as (-> & _ & E1).
  destruct (truncated_form (with_exts c (front ++ [mkExt etPreSharedKey e'])) front e' ids bs' body' eq_refl He' Hl' Hb') as (-> & _ & E2).
  rewrite E1, E2. rewrite Elb, Ele. reflexivity.
Qed.
