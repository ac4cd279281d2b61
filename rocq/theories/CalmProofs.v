(** Decoding what a peer sends neither panics nor runs out of fuel. *)
From Verif Require Import Base Syntax SyntaxSpec SyntaxProofs SyntaxProofs2 SyntaxProofs3 SyntaxMain Frame Record Timer Handshake Crypto Messages Pki Negotiation Machine Cookie Client Server MachineProofs StepProofs.

Definition calm {A} (r : res A) : Prop := r <> Panic /\ r <> Fuel.
Lemma calm_ok {A} (a : A) : calm (Ok a). Proof. split; discriminate. Qed.
Lemma calm_err {A} e : calm (Err e : res A). Proof. split; discriminate. Qed.
Lemma calm_bind {A B} (r : res A) (f : A -> res B) : calm r -> (forall a, r = Ok a -> calm (f a)) -> calm (do x <- r; f x).
Proof. destruct r as [a|e| |]; intros [H1 H2] K; cbn [bind]; auto using calm_err; congruence. Qed.
Lemma calm_or_alert {A} (r : res A) n : calm r -> calm (or_alert r n).
Proof. destruct r; intros [H1 H2]; split; cbn; congruence. Qed.
#[export] Hint Resolve calm_ok calm_err calm_or_alert : calm.

Lemma calm_unmarshal t data : no_optional t null_opts -> elems_nonempty t null_opts -> calm (unmarshal (List.length data) t data).
Proof. intros A B. split; [now apply main_no_panic|now apply main_terminates]. Qed.
Lemma calm_decoded {A} t (of : val -> A) data : no_optional t null_opts -> elems_nonempty t null_opts -> calm (decoded t of data).
Proof. intros H K. unfold decoded. apply calm_bind; [now apply calm_unmarshal|]. intros [v n] _. apply calm_ok. Qed.
Ltac shape := repeat split; cbn; intuition (discriminate || lia).
Lemma calm_safe {A} (un : bytes -> res (A * nat)) data : calm (un data) -> calm (safeUnmarshal un data).
Proof. intros H. unfold safeUnmarshal. apply calm_bind; [exact H|]. intros [a n] _. destruct (negb _); auto with calm. Qed.
#[export] Hint Resolve calm_safe : calm.

Lemma calm_ch v data : calm (ch_unmarshal v data).
Proof.
  unfold ch_unmarshal. cbv zeta. destruct (negb (v =? _)); (apply calm_bind; [apply calm_unmarshal; shape|]); intros [x n] _; repeat (match goal with |- calm (if ?b then _ else _) => destruct b end); auto with calm.
Qed.
Lemma calm_sh data : calm (sh_unmarshal data). Proof. apply calm_decoded; shape. Qed.
Lemma calm_extlist data : calm (extlist_unmarshal data). Proof. apply calm_decoded; shape. Qed.
Lemma calm_cert X data : calm (cert_unmarshal X data).
Proof. unfold cert_unmarshal. apply calm_bind; [apply calm_decoded; shape|]. intros [c n] _. destruct (forallb _ _); auto with calm. Qed.
Lemma calm_cr data : calm (cr_unmarshal data). Proof. apply calm_decoded; shape. Qed.
Lemma calm_cv data : calm (cv_unmarshal data). Proof. apply calm_decoded; shape. Qed.
Lemma calm_fin n data : calm (fin_unmarshal n data). Proof. unfold fin_unmarshal. destruct (_ <? _)%nat; auto with calm. Qed.
Lemma calm_tkt data : calm (tkt_unmarshal data). Proof. apply calm_decoded; shape. Qed.
Lemma calm_ku data : calm (ku_unmarshal data). Proof. apply calm_decoded; shape. Qed.
Lemma calm_eoed data : calm (eoed_unmarshal data). Proof. apply calm_ok. Qed.
Lemma calm_list16 data : calm (list16_unmarshal data). Proof. apply calm_decoded; shape. Qed.
Lemma calm_ks_client data : calm (ks_client_unmarshal data).
Proof. unfold ks_client_unmarshal. apply calm_bind; [apply calm_decoded; shape|]. intros [c n] _. destruct (forallb _ _); auto with calm. apply calm_err. Qed.
Lemma calm_ks_server data : calm (ks_server_unmarshal data).
Proof. unfold ks_server_unmarshal. apply calm_bind; [apply calm_decoded; shape|]. intros [c n] _. destruct (sizeValid _); auto with calm. apply calm_err. Qed.
Lemma calm_psk_client data : calm (psk_client_unmarshal data).
Proof. unfold psk_client_unmarshal. apply calm_bind; [apply calm_decoded; shape|]. intros [[c d] n] _. destruct (negb _); auto with calm. Qed.
Lemma calm_psk_server data : calm (psk_server_unmarshal data). Proof. apply calm_decoded; shape. Qed.
Lemma calm_modes data : calm (modes_unmarshal data). Proof. apply calm_decoded; shape. Qed.
Lemma calm_early data : calm (early_unmarshal data). Proof. apply calm_ok. Qed.
Lemma calm_tedi data : calm (tedi_unmarshal data). Proof. apply calm_decoded; shape. Qed.
Lemma calm_alpn data : calm (alpn_unmarshal data). Proof. apply calm_decoded; shape. Qed.
Lemma calm_versions_client data : calm (versions_client_unmarshal data). Proof. apply calm_decoded; shape. Qed.
Lemma calm_versions_server data : calm (versions_server_unmarshal data). Proof. apply calm_decoded; shape. Qed.
Lemma calm_cookie data : calm (cookie_unmarshal data). Proof. apply calm_decoded; shape. Qed.
Lemma slice_nonempty fuel t o d v r d' : decode fuel (TSlice t) o d = Ok (v, r, d') -> (0 < minSize o)%Z -> elems v <> [].
Proof.
  cbn [decode]. intros H M. inv_bind H as [[rd L] d1] H1. inv_bind H as [e d2] H2. inv_bind H as [l r1] H3. apply Ok_inj in H. injection H as <- _ _. cbn [elems].
  assert (0 < L)%Z as HL.
  { unfold decodeLength in H1. inv_bind H1 as [[r0 L0] d0] H4. destruct (_ && _)%bool; [discriminate|]. destruct (L0 <? minSize o)%Z eqn:E; [discriminate|].
    apply Ok_inj in H1. injection H1 as _ <- _. apply Z.ltb_ge in E. lia. }
  apply takeElems_Ok in H2. destruct H2 as [_ ->]. destruct e as [|x e]; [cbn in HL; lia|]. destruct fuel; [discriminate|]. cbn [dec_many] in H3.
  inv_bind H3 as [[v1 r2] d3] H4. inv_bind H3 as [vs r3] H5. apply Ok_inj in H3. injection H3 as <- _. discriminate.
Qed.
Lemma calm_sni data : calm (sni_unmarshal data).
Proof.
  unfold sni_unmarshal. apply calm_bind; [apply calm_unmarshal; shape|]. intros [v n] H. unfold sni_ty, unmarshal in H. destruct (ty_valid _); [|discriminate].
  inv_bind H as [[v1 r1] d1] H1. apply Ok_inj in H. injection H as <- _. cbn [decode struct] in H1. inv_bind H1 as [[l r] d2] H2. apply Ok_inj in H1. injection H1 as <- _ _.
  cbn [decode_fields] in H2. inv_bind H2 as [[v2 r2] d3] H3. inv_bind H2 as [[l2 r4] d4] H4. apply Ok_inj in H2. injection H2 as <- _ _.
  assert (elems v2 <> []) as K. { eapply slice_nonempty; [exact H3|]. reflexivity. }
  unfold field. cbn [elems nth]. destruct (elems v2); [contradiction|]. destruct (_ =? _); auto with calm.
Qed.
#[export] Hint Resolve calm_ch calm_sh calm_extlist calm_cert calm_cr calm_cv calm_fin calm_tkt calm_ku calm_eoed calm_list16 calm_ks_client calm_ks_server
  calm_psk_client calm_psk_server calm_modes calm_early calm_tedi calm_alpn calm_versions_client calm_versions_server calm_cookie calm_sni : calm.

Lemma calm_toBody X t data : calm (toBody X t data).
Proof.
  unfold toBody. repeat match goal with |- calm (if ?b then _ else _) => destruct b end; auto with calm; (apply calm_bind; [apply calm_safe; auto with calm; apply calm_extlist|]; intros; auto with calm).
Qed.
Lemma calm_find {A} l t (un : bytes -> res (A * nat)) r : (forall d, calm (un d)) -> el_find l t un = Some r -> calm r.
Proof. intros C. induction l as [|e l IH]; [discriminate|]. cbn [el_find]. destruct (_ =? _); [|exact IH]. intros [= <-]. auto with calm. Qed.
Lemma calm_parse_one {S} l t (un : S -> bytes -> res S) : (forall s d, calm (un s d)) -> forall found s, calm (el_parse_one l t un found s).
Proof.
  intros C. induction l as [|e l IH]; intros found s; cbn [el_parse_one]; [apply calm_ok|]. destruct (_ =? _); [|apply IH]. destruct (existsb _ _); [apply calm_err|].
  apply calm_bind; auto.
Qed.
Lemma calm_parse {S} l (dsts : list (N * (S -> bytes -> res S))) s : Forall (fun d => forall s b, calm (snd d s b)) dsts -> calm (el_parse l dsts s).
Proof.
  unfold el_parse. intros F. generalize (@nil N). revert s. induction F as [|[t un] dsts C _ IH]; intros s found; cbn [el_parse_all]; [apply calm_ok|].
  apply calm_bind; [apply calm_parse_one; exact C|]. intros [f2 s2] _. apply IH.
Qed.
Ltac calm_dsts := repeat constructor; cbn [snd]; intros; (apply calm_bind; [apply calm_safe; auto with calm|]; intros; apply calm_ok).
Lemma calm_ch_dsts l : calm (el_parse l ch_dsts no_chexts). Proof. apply calm_parse. calm_dsts. Qed.
Lemma calm_sh_dsts l : calm (el_parse l sh_dsts (None, None)). Proof. apply calm_parse. calm_dsts. Qed.
Lemma calm_ee_dsts l : calm (el_parse l ee_dsts []).
Proof.
  apply calm_parse. constructor; [|constructor; [|constructor]]; cbn [snd]; intros.
  - apply calm_safe; auto with calm.
  - apply calm_bind; [apply calm_safe; auto with calm|]. intros; apply calm_ok.
Qed.
