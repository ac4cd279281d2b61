(** C45: encoding and key generation do not panic. *)
From Verif Require Import Base Syntax SyntaxSpec SyntaxProofs SyntaxProofs2 SyntaxProofs3 Record Crypto CryptoSpec CryptoProofs Messages MessageSpec MessageProofs MessageProofs2 MessageProofs3 PropDecode
  Pki Negotiation Machine Cookie Client Server MachineProofs CalmProofs HelloProofs CrashSpec.

(** ** Marshalling *)

Lemma np_calm {A} (r : res A) : calm r -> no_panic r. Proof. now intros []. Qed.
Lemma np_alert {A} (r : res A) n : no_panic r -> no_panic (or_alert r n).
Proof. unfold no_panic. destruct r; cbn; congruence. Qed.
Lemma np_varint n : no_panic (writeVarint n).
Proof. unfold writeVarint. repeat match goal with |- no_panic (let _ := _ in _) => cbv zeta | |- no_panic (match ?x with _ => _ end) => destruct x end; np. Qed.
Lemma np_length n o : no_panic (encodeLength n o).
Proof. unfold encodeLength. np. apply np_varint. Qed.
Lemma np_ill {A} : no_panic (@ill A). Proof. discriminate. Qed.
Lemma np_alerts {A} n : no_panic (@alert A n). Proof. discriminate. Qed.
#[export] Hint Resolve np_alerts np_varint np_length np_ill np_alert : nopanic.
Lemma np_enc_all (enc : val -> res bytes) l : (forall v, no_panic (enc v)) -> no_panic (enc_all enc l).
Proof. intros H. induction l as [|v l IH]; cbn [enc_all]; np. Qed.
Lemma np_enc_pairs (ek ev : val -> res bytes) l : (forall v, no_panic (ek v)) -> (forall v, no_panic (ev v)) -> no_panic (enc_pairs ek ev l).
Proof. intros H K. induction l as [|[k v] l IH]; cbn [enc_pairs]; np. Qed.
Lemma encode_no_panic :
  (forall t o v, no_panic (encode t o v)) /\ (forall fs l, no_panic (encode_fields fs l)).
Proof.
  apply ty_fields_ind.
  - intros s o v. cbn [encode]. destruct v; np.
  - intros n t IH o v. cbn [encode]. destruct v; np. now apply np_enc_all.
  - intros t IH o v. cbn [encode]. destruct v; np. now apply np_enc_all.
  - intros fs IH o v. cbn [encode]. destruct v; np.
  - intros k IHk e IHe o v. cbn [encode]. destruct v as [n|l|l| |v]; np. now apply np_enc_pairs.
  - intros t IH o v. cbn [encode]. destruct v; np.
  - intros p t IH o v. cbn [encode]. np.
  - intros z e d o v. cbn [encode]. destruct (e v); np.
  - intros l. cbn [encode_fields]. destruct l; np.
  - intros o t IHt fs IHf l. cbn [encode_fields]. destruct l; np.
Qed.
Lemma np_marshal t v : no_panic (marshal t v).
Proof. unfold marshal. destruct (ty_valid t); [apply encode_no_panic|np]. Qed.
#[export] Hint Resolve np_marshal : nopanic.
Lemma np_body b : no_panic (body_marshal b).
Proof.
  destruct b; cbn [body_marshal]; try apply np_marshal; try apply no_panic_Ok.
  - unfold ch_marshal. destruct (_ =? _); apply np_marshal.
  - unfold fin_marshal. np.
Qed.
Lemma np_add l t r : no_panic r -> no_panic (el_add l t r).
Proof. intros H. unfold el_add. np. Qed.
Lemma np_ignoring l t r : no_panic r -> no_panic (add_ignoring l t r).
Proof. intros H. apply (np_add l t) in H. unfold add_ignoring, no_panic in *. destruct (el_add l t r); congruence. Qed.
Lemma np_ks_client l : no_panic (ks_client_marshal l).
Proof. unfold ks_client_marshal. destruct (forallb _ _); [apply np_marshal|discriminate]. Qed.
Lemma np_ks_server l : no_panic (ks_server_marshal l).
Proof. unfold ks_server_marshal. destruct (sizeValid _); [apply np_marshal|discriminate]. Qed.
#[export] Hint Resolve np_add np_ignoring np_ks_client np_ks_server np_body : nopanic.

(** ** Key generation *)

Lemma prime_group g p : primeFromNamedGroup g = Some p -> In g ffdhe_groups.
Proof.
  unfold primeFromNamedGroup, ffdhe_groups.
  repeat (match goal with |- context [if ?a =? ?b then _ else _] => destruct (N.eqb_spec a b) as [->|_] end; [intros _; cbn; tauto|]). discriminate.
Qed.
Lemma np_loop p rand : no_panic (ffdheKeyShareFromPrime p rand).
Proof. induction rand as [|[x|] rand IH]; cbn [ffdheKeyShareFromPrime]; np. Qed.
Lemma np_new P rnd g : no_panic (newKeyShare P rnd g).
Proof.
  unfold newKeyShare. destruct (_ || _); [destruct (kr_curve rnd); np|]. destruct (primeFromNamedGroup g) as [p|] eqn:Ep; [|np].
  destruct (ffdhe_prime g (prime_group _ _ Ep)) as (p' & Ep' & H1 & H2 & _). assert (p' = p) as -> by congruence.
  apply no_panic_bind; [apply np_loop|]. intros [x X] H. apply ffdhe_loop in H.
  destruct (padLeft_ok (keyExchangeSize g) X) as (b & Eb & _); [subst X; unfold expMod; pose proof (N.mod_lt (2 ^ x) p); lia|].
  rewrite Eb. cbn [bind]. np.
Qed.
Lemma agreement_panic P g pub priv : keyAgreement P g pub priv = Panic -> In g [23; 24; 25; 29] /\ ec_agree P g pub priv = None.
Proof.
  unfold keyAgreement. destruct (_ || _) eqn:G.
  - destruct (negb _); [discriminate|]. destruct (ec_agree P g pub priv); [discriminate|]. intros _. split; [|reflexivity].
    rewrite !orb_true_iff, !N.eqb_eq in G. cbn. unfold P256, P384, P521, X25519 in G. intuition congruence.
  - destruct (primeFromNamedGroup g) as [p|] eqn:Ep; [|discriminate]. destruct (negb _); [discriminate|].
    destruct (ffdhe_prime g (prime_group _ _ Ep)) as (p' & Ep' & H1 & H2 & _). assert (p' = p) as -> by congruence. intros H. exfalso. revert H.
    destruct (padLeft_ok (keyExchangeSize g) (expMod (unbe pub) (unbe priv) p)) as (b & Eb & _); [unfold expMod; pose proof (N.mod_lt (unbe pub ^ unbe priv) p); lia|].
    rewrite Eb. discriminate.
Qed.
Lemma np_shares P rnd groups : forall n, no_panic (client_shares P rnd n groups).
Proof. induction groups as [|g groups IH]; intros n; cbn [client_shares]; np. apply np_new. Qed.
Lemma np_client_extensions cfg st shares : no_panic (client_extensions cfg st shares).
Proof.
  unfold client_extensions. repeat (match goal with |- no_panic (bind _ _) => apply no_panic_bind; [|intros ? _] end); try (apply np_add; first [apply np_marshal|apply np_ks_client]).
  - destruct (st_nextProtos st); [np|]. apply np_add, np_marshal.
  - destruct (st_cookie st); [|np]. apply np_add, np_marshal.
  - destruct (cf_pskModes cfg); [np|]. apply np_add, np_marshal.
Qed.

Lemma dh_try_panic P rnd share groups : forall n, dh_try P rnd n share groups = Panic -> bad_share P share.
Proof.
  induction groups as [|g groups IH]; intros n; cbn [dh_try]; [discriminate|]. destruct (negb (g =? ks_group share)); [apply IH|].
  pose proof (np_new P (rnd n) (ks_group share)) as N. destruct (newKeyShare _ _ _) as [[pub priv]|e| |]; [|apply IH|congruence|discriminate].
  destruct (keyAgreement P (ks_group share) (ks_data share) priv) as [z|e| |] eqn:K; [discriminate|apply IH| |discriminate].
  intros _. apply agreement_panic in K. destruct K as [A B]. split; [exact A|eauto].
Qed.
Lemma dh_panic P rnd groups shares : forall n, dhNegotiation P rnd n shares groups = Panic -> exists s, In s shares /\ bad_share P s.
Proof.
  induction shares as [|s shares IH]; intros n; cbn [dhNegotiation]; [discriminate|].
  destruct (dh_try P rnd n s groups) as [[n' r]|e| |] eqn:D; cbn [bind]; try discriminate.
  - destruct r; [discriminate|]. intros H. apply IH in H. destruct H as (s' & I & B). exists s'. split; [now right|exact B].
  - intros _. exists s. split; [now left|]. eapply dh_try_panic; eauto.
Qed.

(** ** Truncation *)

Lemma ext_in_hello c body e : ch_marshal c = Ok body -> In e (ch_exts c) -> (List.length (e_data e) <= List.length body)%nat.
Proof.
  intros H I. apply ch_is in H. destruct H as [_ ->]. apply in_split in I. destruct I as (a & b & E).
  assert (L : (List.length (e_data e) <= List.length (exts_wire (ch_exts c)))%nat).
  { rewrite E. unfold exts_wire. rewrite map_app, concat_app, app_length. cbn [map concat]. rewrite app_length. unfold ext_wire at 2. unfold vector. rewrite !app_length. lia. }
  unfold ch_wire, vector. rewrite !app_length. lia.
Qed.
Lemma binders_in d ids bs n : psk_client_unmarshal d = Ok (ids, bs, n) -> 
  (List.length (match marshal binders_ty (VList [VList (map vbinder bs)]) with Ok b => b | _ => [] end) <= List.length d)%nat.
Proof.
  intros H. assert (xb_unmarshal (XPskClient [] []) d = Ok (XPskClient ids bs, n)) as X. { cbn [xb_unmarshal]. rewrite H. reflexivity. }
  apply xb_decoded in X; [|intros ? ?; discriminate]. destruct X as [Hf X]. cbn [xb_wire xb_fits] in X, Hf.
  assert (Ebd : marshal binders_ty (VList [VList (map vbinder bs)]) = Ok (vector 2 (binders_wire bs))).
  { eapply is_marshal; [eapply is_eq; [unfold binders_ty; repeat step_enc|reflexivity|reflexivity]|reflexivity|].
    split; [|now rewrite app_nil_r]. tidy. unfold binders_wire in Hf. split_and. apply andb_true_iff. split; assumption. }
  rewrite Ebd. assert (L : (List.length (firstn n d) <= List.length d)%nat) by (rewrite firstn_length; lia). rewrite X, app_length in L. lia.
Qed.
Lemma np_truncated c : no_panic (ch_truncated c).
Proof.
  unfold ch_truncated. destruct (rev (ch_exts c)) as [|e r] eqn:R; [np|]. destruct (negb _); [np|]. apply no_panic_bind; [apply (np_body (BClientHello c))|]. intros body Hb.
  cbv zeta. apply no_panic_bind; [apply np_calm, calm_psk_client|]. intros [[ids bs] n] Hp.
  assert (In e (ch_exts c)) as I. { apply in_rev. rewrite R. now left. }
  pose proof (ext_in_hello _ _ _ Hb I) as L1. pose proof (binders_in _ _ _ _ Hp) as L2.
  destruct (Nat.ltb_spec (List.length (tls_message htClientHello body)) (match marshal binders_ty (VList [VList (map vbinder bs)]) with Ok b => List.length b | _ => 0%nat end)) as [L|L]; [|np].
  exfalso. unfold tls_message in L. rewrite !app_length in L. destruct (marshal binders_ty _); cbn [List.length] in *; lia.
Qed.
Lemma np_client_psk P o cfg st ch key ps : no_panic (client_psk P o cfg st ch key ps).
Proof.
  unfold client_psk. cbv zeta. apply no_panic_bind.
  - destruct (_ && _); [|np]. apply no_panic_bind; [apply np_add, no_panic_Ok|np].
  - intros c _. destruct (cf_pskModes cfg); [np|]. apply no_panic_bind; [apply np_ignoring, np_marshal|]. intros l1 _. apply no_panic_bind; [apply np_truncated|]. intros t _.
    apply no_panic_bind; [apply np_ignoring, np_marshal|np].
Qed.

(** What makes [client_start] unable to dereference a nil message: the binder is as long as the zeros it takes the place
    of, so the ClientHello can be marshalled again. *)
Definition alike (a b : ext) : Prop := e_type a = e_type b /\ len (e_data a) = len (e_data b).
Lemma alike_refl l : Forall2 alike l l.
Proof. induction l; constructor; auto. split; reflexivity. Qed.
Lemma replace_alike l t d d' l1 l2 : len d = len d' -> el_replace l t d = Some l1 -> el_replace l1 t d' = Some l2 -> Forall2 alike l1 l2.
Proof.
  intros L. revert l1 l2. induction l as [|e l IH]; intros l1 l2; cbn [el_replace]; [discriminate|]. destruct (e_type e =? t) eqn:T.
  - intros [= <-]. cbn [el_replace e_type]. rewrite T. intros [= <-]. constructor; [split; [reflexivity|exact L]|apply alike_refl].
  - destruct (el_replace l t d) as [l0|]; [|discriminate]. intros [= <-]. cbn [el_replace]. rewrite T. destruct (el_replace l0 t d') as [l3|] eqn:E; [|discriminate]. intros [= <-].
    constructor; [split; reflexivity|eauto].
Qed.
Lemma replace_last l t d d' : el_replace l t d = None -> el_replace (l ++ [mkExt t d]) t d' = Some (l ++ [mkExt t d']).
Proof.
  induction l as [|e l IH]; cbn [el_replace app e_type]; [now rewrite N.eqb_refl|]. destruct (e_type e =? t); [discriminate|]. destruct (el_replace l t d); [discriminate|]. intros _. now rewrite IH.
Qed.
Lemma replace_none l t d d' : el_replace l t d = None -> el_replace l t d' = None.
Proof. induction l as [|e l IH]; cbn [el_replace]; [auto|]. destruct (_ =? _); [discriminate|]. destruct (el_replace l t d); [discriminate|]. intros _. now rewrite IH. Qed.
Lemma Forall2_app1 l a b : alike a b -> Forall2 alike (l ++ [a]) (l ++ [b]).
Proof. intros H. induction l; constructor; auto. split; reflexivity. Qed.
Lemma replaced_none l t d l1 d' : el_replace l t d = Some l1 -> el_replace l1 t d' <> None.
Proof.
  revert l1. induction l as [|e l IH]; intros l1; cbn [el_replace]; [discriminate|]. destruct (e_type e =? t) eqn:T.
  - intros [= <-]. cbn [el_replace e_type]. now rewrite T.
  - destruct (el_replace l t d) as [l0|]; [|discriminate]. intros [= <-]. cbn [el_replace]. rewrite T. specialize (IH l0 eq_refl). now destruct (el_replace l0 t d').
Qed.
Lemma add_alike l t d d' l1 l2 : len d = len d' -> el_add l t (Ok d) = Ok l1 -> el_add l1 t (Ok d') = Ok l2 -> Forall2 alike l1 l2.
Proof.
  intros L. unfold el_add. cbn [bind]. intros H1 H2. apply Ok_inj in H1, H2. destruct (el_replace l t d) as [l0|] eqn:E1.
  - subst l0. pose proof (replaced_none _ _ _ _ d' E1) as N. destruct (el_replace l1 t d') as [l3|] eqn:E2; [|congruence]. subst l3. eapply replace_alike; eauto.
  - subst l1. rewrite (replace_last _ _ _ d' E1) in H2. subst l2. apply Forall2_app1. split; [reflexivity|exact L].
Qed.
Lemma alike_wire l m : Forall2 alike l m -> len (exts_wire l) = len (exts_wire m) /\ forallb ext_fits l = forallb ext_fits m.
Proof.
  induction 1 as [|a b l m [T L] _ [IH1 IH2]]; [split; reflexivity|]. unfold exts_wire in *. cbn [map concat forallb]. rewrite !len_app, IH1, IH2.
  unfold ext_wire, ext_fits, vector, sized. rewrite !len_app, !len_be, L, T. split; reflexivity.
Qed.
Lemma again_marshals c l1 l2 b : ch_marshal (set_exts c l1) = Ok b -> Forall2 alike l1 l2 -> exists b', ch_marshal (set_exts c l2) = Ok b'.
Proof.
  intros H F. apply ch_is in H. destruct H as [H _]. eexists. apply ch_is. split; [|reflexivity]. apply alike_wire in F. destruct F as [F1 F2].
  unfold ch_fits, set_exts, exts_fit, sized in *. cbn [ch_version ch_random ch_suites ch_exts] in *. now rewrite <- F1, <- F2.
Qed.
Lemma finished_len P ps key d : mac_sized P -> len (computeFinishedData P ps key d) = N.of_nat (hsize (s_hash ps)).
Proof. intros M. unfold computeFinishedData, len. now rewrite M. Qed.
Lemma client_psk_marshals P o cfg st ch key ps ch' es early : mac_sized P -> client_psk P o cfg st ch key ps = Ok (ch', es, early) -> of_type 41 (ch_exts ch) = [] ->
  exists b, ch_marshal ch' = Ok b.
Proof.
  unfold client_psk. cbv zeta. intros M H N. inv_bind H as c1 H1. destruct (cf_pskModes cfg); [discriminate|].
  inv_bind H as l1 H2. inv_bind H as t H3. inv_bind H as l2 H4. apply Ok_inj in H. injection H as <- _ _.
  set (early0 := cf_allowEarlyData cfg && _) in H1.
  assert (X : of_type 41 (ch_exts c1) = []).
  { destruct early0; [|apply Ok_inj in H1; subst c1; cbn; auto]. inv_bind H1 as l0 H0. apply Ok_inj in H1. subst c1. cbn [set_exts ch_version ch_suites ch_exts] in *.
    rewrite <- N. refine (add_others _ _ _ _ 41 H0 _). discriminate. }
  pose proof (truncated_psk _ _ H3) as H5. cbn [set_exts ch_exts] in H5, H4.
  set (ids := [mkPid (psk_identity key) _]) in *.
  assert (el_add (ch_exts c1) etPreSharedKey (psk_client_marshal ids [repeat x00 (hsize (s_hash ps))]) = Ok l1) as A1.
  { destruct (ignoring_cases _ _ _ _ H2) as [A| ->]; [exact A|]. rewrite X in H5. now destruct H5. }
  assert (Hm : exists b, ch_marshal (set_exts c1 l1) = Ok b).
  { unfold ch_truncated in H3. destruct (rev _); [discriminate|]. destruct (negb _); [discriminate|]. inv_bind H3 as body Hb. eauto. }
  destruct Hm as [b Hm]. set (binder := computeFinishedData _ _ _ _) in *.
  assert (Lb : len binder = N.of_nat (hsize (s_hash ps))) by now apply finished_len.
  unfold el_add in A1. inv_bind A1 as d Ed. assert (Ed' : exists d', psk_client_marshal ids [binder] = Ok d' /\ len d = len d').
  { apply (xb_is (XPskClient ids _)) in Ed. destruct Ed as [F ->].
    assert (Lz : len (repeat x00 (hsize (s_hash ps))) = len binder) by (unfold len at 1; now rewrite repeat_length, Lb).
    assert (Lw : len (binders_wire [repeat x00 (hsize (s_hash ps))]) = len (binders_wire [binder])).
    { apply binders_len. constructor; [exact Lz|constructor]. }
    eexists. split; [apply (xb_is (XPskClient ids [binder])); split; [|reflexivity]|].
    - cbn [xb_fits forallb] in *. unfold sized in *. rewrite Lz, Lw in F. exact F.
    - cbn [xb_wire]. unfold vector. rewrite !len_app, !len_be, Lw. reflexivity. }
  destruct Ed' as (d' & Ed' & L). assert (A2 : el_add (ch_exts c1) etPreSharedKey (Ok d) = Ok l1) by exact A1.
  destruct (el_add l1 etPreSharedKey (Ok d')) as [l3|e| |] eqn:A3; [|unfold el_add in A3; discriminate|unfold el_add in A3; discriminate|unfold el_add in A3; discriminate].
  unfold add_ignoring in H4. rewrite Ed', A3 in H4. apply Ok_inj in H4. subst l3.
  destruct (again_marshals _ _ _ _ Hm (add_alike _ _ _ _ _ _ L A2 A3)) as [b' Hb']. exists b'. exact Hb'.
Qed.
