(** C45: where a panic can come from in a connection over a stream. *)
From Verif Require Import Base Syntax SyntaxProofs3 Frame FrameProofs Record RecordSpec RecordProofs Timer Handshake Crypto CryptoSpec Messages MessageSpec Pki Negotiation Machine Cookie Client Server
  MachineProofs StillProofs CalmProofs StepProofs CtxProofs Conn ConnSpec ConnProofs CrashSpec CrashProofs CrashProofs2 CrashProofs3.

(** ** Reading past and through early data *)

Lemma fine_same d l l' : same_layer l l' -> rl_fine d l -> rl_fine d l'.
Proof. intros (A1 & A2 & A3 & A4 & v & A5) [(C1 & C2 & C3) F]. unfold rl_fine, core_fine. rewrite A1, A5. cbn. auto. Qed.
Lemma tctx_still x0 x : still x0 x -> tctx x0 -> tctx x.
Proof.
  intros (A1 & A2 & A3 & A4 & A5 & A6 & A7 & A8 & A9) (T1 & T2 & T3 & T4 & T5 & T6 & T7 & T8). unfold tctx. rewrite A3, A4, A5, A6, A7, A8.
  split; [eapply fine_same; eauto|]. split; [eapply fine_same; eauto|]. auto 10.
Qed.
Lemma still_self w : tctx (w_ctx w) -> wstill w w.
Proof. intros (T1 & T2 & T3 & T4 & T5 & T6 & T7 & T8). now apply still_refl. Qed.
Lemma tctx_conn w l : tctx (w_ctx w) -> rl_fine DirRead l -> tctx (w_ctx (set_in_conn w l)).
Proof. intros T F. pose proof T as (T1 & T2 & T3 & T4 & T5 & T6 & T7 & T8). unfold set_in_conn. cbn [w_ctx set_ctx]. apply tctx_in; auto. Qed.

Definition in_epoch (w : world) : N := rl_epoch (l_core (in_conn w)).
Lemma peek_crash fuel : forall w w' r, tctx (w_ctx w) -> peek fuel w = (w', r) ->
  tctx (w_ctx w') /\ in_epoch w' = in_epoch w /\ (r = Panic -> stuck_in (w_ctx w')).
Proof.
  induction fuel as [|fuel IH]; intros w w' r T; cbn [peek]. { intros [= <- <-]. split; [auto|split; [reflexivity|discriminate]]. }
  pose proof (like_peek (in_conn w)) as L. unfold peekRecordType in *. destruct (nextRecord (in_conn w) false) as [l q] eqn:E. cbn [fst] in L. apply core_like_epoch in L.
  destruct (nextRecord_crash _ _ _ _ (proj1 T) E) as (F & Q1 & Q2). pose proof (tctx_conn w l T F) as T'.
  destruct q as [pt|e| |]; cbn [bind].
  - intros [= <- <-]. split; [auto|split; [exact L|discriminate]].
  - destruct (_ && _).
    + intros K. destruct (IH _ _ _ T' K) as (K1 & K2 & K3). split; [auto|split; [|auto]]. rewrite K2. exact L.
    + intros [= <- <-]. split; [auto|split; [exact L|discriminate]].
  - intros [= <- <-]. split; [auto|split; [exact L|]]. intros _. destruct (Q2 eq_refl); [left|right; left]; assumption.
  - intros [= <- <-]. split; [auto|split; [exact L|discriminate]].
Qed.
Lemma read_early_crash fuel : forall w w' r, tctx (w_ctx w) -> in_epoch w = EpochEarlyData -> read_early fuel w = (w', r) ->
  tctx (w_ctx w') /\ in_epoch w' = EpochEarlyData /\ (r = Panic -> stuck_in (w_ctx w')).
Proof.
  induction fuel as [|fuel IH]; intros w w' r T Ep; cbn [read_early]. { intros [= <- <-]. split; [auto|split; [auto|discriminate]]. }
  unfold in_epoch in Ep. rewrite Ep, N.eqb_refl. cbn [negb]. destruct (peek (S fuel) w) as [w1 q] eqn:E. destruct (peek_crash _ _ _ _ T E) as (T1 & E1 & Q1). unfold in_epoch in E1. rewrite Ep in E1.
  destruct q as [t|e| |].
  - destruct (negb _). { intros [= <- <-]. split; [auto|split; [auto|discriminate]]. }
    pose proof (like_read (in_conn w1) false) as L. fold readRecord in L. destruct (readRecord (in_conn w1)) as [l q] eqn:Er. cbn [fst] in L. apply core_like_epoch in L.
    destruct (readRecordE_crash _ _ _ _ (proj1 T1) Er) as (F & Q2 & Q3). pose proof (tctx_conn w1 l T1 F) as T2. assert (E2 : in_epoch (set_in_conn w1 l) = EpochEarlyData) by (unfold in_epoch; cbn; rewrite L; exact E1).
    destruct q as [pt|e| |].
    + apply IH; [exact T2|exact E2].
    + intros [= <- <-]. split; [auto|split; [auto|discriminate]].
    + intros [= <- <-]. split; [auto|split; [auto|]]. intros _. destruct (Q3 eq_refl); [left|right; left]; assumption.
    + intros [= <- <-]. split; [auto|split; [auto|discriminate]].
  - intros [= <- <-]. split; [auto|split; [auto|]]. destruct (is_wb e); discriminate.
  - intros [= <- <-]. auto.
  - intros [= <- <-]. split; [auto|split; [auto|discriminate]].
Qed.
Lemma read_past_crash fuel : forall w nx w' r, tctx (w_ctx w) -> server_read_past fuel w nx = (w', r) ->
  tctx (w_ctx w') /\ (r = Panic -> stuck_in (w_ctx w')) /\ (forall a, r = Ok a -> a = (nx, [], false)).
Proof.
  induction fuel as [|fuel IH]; intros w nx w' r T; cbn [server_read_past]. { intros [= <- <-]. split; [auto|split; discriminate]. }
  destruct (peek (S fuel) w) as [w1 q] eqn:E. destruct (peek_crash _ _ _ _ T E) as (T1 & E1 & Q1). destruct q as [t|e| |].
  - intros [= <- <-]. split; [auto|split; [discriminate|]]. now intros a [= <-].
  - destruct e; [|apply IH; exact T1|]; intros [= <- <-]; (split; [auto|]); split; try discriminate; intros; repeat match goal with K : context [if ?b then _ else _] |- _ => destruct b end; discriminate.
  - intros [= <- <-]. split; [auto|split; [auto|discriminate]].
  - intros [= <- <-]. split; [auto|split; discriminate].
Qed.

(** ** One step *)

Definition eoed_acts (s : hstate) (r : outcome) : Prop := let '(_, acts, _) := r in match s with SWaitEOED _ => exists e k, acts = [RekeyIn e k] | _ => True end.
Definition eoed_epoch (s : hstate) (w : world) : Prop := match s with SWaitEOED _ => in_epoch w = EpochEarlyData | _ => True end.

Lemma stuck_crash P c : stuck_in (c_ctx c) -> crash P c.
Proof. intros [H|[H|H]]; [now apply crash_zeros|now apply crash_worn_in|now apply crash_alert]. Qed.

(** Only one state leads to the reading of early data. *)
Definition not_eoed (s : hstate) : Prop := match s with SWaitEOED _ => False | _ => True end.
Lemma next_eoed P X o fuel w s w' s' acts retry : hs_ok s -> next P X o fuel w s = (w', Ok (s', acts, retry)) -> (exists n, s = SNegotiated n) \/ not_eoed s'.
Proof.
  destruct s; cbn [next hs_ok]; intros K H; [right|right|right|right|right|right|right|right|left; eauto|right..].
  - apply client_start_ok in H. destruct H as (ws & ch & sending & k & -> & _). exact I.
  - inv_call H as w1 hm H1. apply client_wait_sh_ok in H. destruct H as (sh & n & vs & _ & _ & _ & _ & _ & [[_ H]|[_ H]]).
    + apply client_hrr_ok in H. destruct H as (c & ps & exts & _ & _ & -> & -> & _). exact I.
    + apply client_server_hello_ok in H. destruct H as (? & ? & ? & ? & ps & ? & _ & _ & _ & _ & _ & H). cbv zeta in H. destruct (handshake_secrets _ _ _ _ _) as [[chs shs] ms].
      destruct H as (-> & _ & ->). exact I.
  - inv_call H as w1 hm H1. apply client_wait_ee_ok in H. destruct H as (? & ? & ? & ? & _ & _ & _ & _ & _ & _ & -> & ->). destruct (p_usingPSK _); exact I.
  - inv_call H as w1 hm H1. apply client_wait_cert_cr_ok in H. destruct H as (_ & _ & -> & H). destruct H as [(? & _ & _ & ->)|(? & _ & _ & _ & ->)]; exact I.
  - inv_call H as w1 hm H1. apply client_wait_cert_ok in H. destruct H as (_ & _ & -> & ? & _ & _ & ->). exact I.
  - inv_call H as w1 hm H1. apply client_wait_cv_ok in H. destruct H as (_ & _ & -> & ? & ? & ? & ? & _ & _ & _ & _ & _ & _ & ->). exact I.
  - inv_call H as w1 hm H1. apply client_wait_finished_ok in H. destruct H as (w3 & w4 & eoed & auth & finm & _ & _ & He & Ha & _ & _ & _ & _ & -> & -> & _). exact I.
  - inv_call H as w1 hm H1. apply server_start_ok in H.
    destruct H as (ch & exts & found & x & v & first & dhs & dh & chosen & suite & hrr & again & w3 & w4 & w5 & _ & _ & _ & _ & _ & _ & _ & _ & _ & _ & _ & H).
    cbv zeta in H. destruct (pskModeNegotiation _ _ _) as [ud up]. destruct H as (_ & _ & _ & _ & _ & H). destruct again.
    + destruct H as (-> & _ & ->). exact I.
    + destruct H as (_ & cert & scheme & proto & _ & _ & -> & _ & H). destruct (earlyDataNegotiation _ _ _). subst s'. exact I.
  - inv_call H as w1 u H1. inv_call H as w2 hm H2. apply server_wait_eoed_ok in H. destruct H as (_ & _ & _ & _ & -> & ->). exact I.
  - apply server_read_past_ok in H. destruct H as (_ & _ & -> & ->). destruct s; try contradiction. exact I.
  - apply server_wait_flight2_ok in H. destruct H as (_ & _ & -> & ->). destruct (p_usingClientAuth _); exact I.
  - inv_call H as w1 hm H1. apply server_wait_cert_ok in H. destruct H as (? & _ & _ & _ & _ & -> & ->). destruct (ct_list _); exact I.
  - inv_call H as w1 hm H1. apply server_wait_cv_ok in H. destruct H as (? & ? & ? & _ & _ & _ & _ & _ & _ & _ & -> & ->). exact I.
  - inv_call H as w1 hm H1. apply server_wait_finished_ok in H. destruct H as (_ & _ & _ & _ & -> & ->). exact I.
  - injection H as <- <- <- <-. exact I.
Qed.

Section next.
Variables (E : env).
Let P := v_prims E.
Let X := v_pki E.
Hypothesis M : mac_sized P.

Lemma fine_client c client : cfg_fine client c -> cfg_fine true c.
Proof. intros (A & B & C & D & _). unfold cfg_fine. repeat split; auto. discriminate. Qed.
Lemma known_flat k : known (sk_suite k) -> hs_ok (SWaitFlight2 k). Proof. auto. Qed.

Lemma hr_epoch fuel o w : in_epoch (fst (hr_read fuel o w)) = in_epoch w.
Proof. pose proof (wx_hr w fuel o w (wx_refl _)) as (L & _). unfold in_epoch, in_conn. unfold in_core in L. now apply core_like_epoch. Qed.

Definition stepped (client : bool) (s : hstate) (w' : world) (r : res outcome) : Prop :=
  tctx (w_ctx w') /\ cfg_fine client (w_cfg w') /\ eoed_epoch s w' /\
  (r = Panic -> forall c, c_world c = w' -> c_hState c = Some s -> crash P c) /\
  (forall a, r = Ok a -> good a /\ eoed_acts s a).


Lemma step_tr client s w (Q : Prop) (p : world * res outcome) : tctx (w_ctx w) -> cfg_fine client (w_cfg w) -> not_eoed s -> tr w Q good p ->
  (Q -> forall c, c_world c = fst p -> c_hState c = Some s -> crash P c) -> stepped client s (fst p) (snd p).
Proof.
  intros T C N (S & F & H & K) HQ. split; [eapply tctx_still; eauto|]. split; [rewrite (frame_cfg _ _ F); exact C|]. split; [destruct s; try exact I; contradiction|].
  split; [auto|]. intros a Ea. split; [auto|]. destruct a as [[s' acts] rt]. destruct s; try exact I. contradiction.
Qed.
Lemma step_reading client s o fuel w f : tctx (w_ctx w) -> cfg_fine client (w_cfg w) -> not_eoed s ->
  (forall w1 hm, tctx (w_ctx w1) -> w_cfg w1 = w_cfg w -> hm_body hm = f_body (hl_frame (x_in (w_ctx w1))) -> stepped client s (fst (f w1 hm)) (snd (f w1 hm))) ->
  let p := sbind (hr_read fuel o w) f in stepped client s (fst p) (snd p).
Proof.
  intros T C N H. cbv zeta. pose proof (frame_hr w fuel o w (frame_refl w)) as F. destruct (hr_read fuel o w) as [w1 r] eqn:Er. destruct (hr_read_crash _ _ _ _ _ T Er) as (_ & T1 & Q1 & Q2).
  unfold all in F. cbn [fst] in F. apply frame_cfg in F. destruct r as [hm|e| |]; cbn [sbind fst snd]; [apply H; auto|..].
  all: split; [exact T1|]; split; [rewrite F; exact C|]; split; [destruct s; try exact I; contradiction|]; split; [|discriminate]; try discriminate.
  intros _ c Ec _. apply stuck_crash. unfold c_ctx. rewrite Ec. auto.
Qed.

Lemma next_crash client o fuel w s : tctx (w_ctx w) -> cfg_fine client (w_cfg w) -> hs_ok s -> state_ok client s -> eoed_epoch s w ->
  let p := next P X o fuel w s in stepped client s (fst p) (snd p).
Proof.
  intros T C K S Ep. pose proof (still_self w T) as St. destruct s; cbn [next hs_ok state_ok] in *.
  - eapply step_tr; [exact T|exact C|exact I|apply tr_client_start; eauto using fine_client|contradiction].
  - apply step_reading; [exact T|exact C|exact I|]. intros w1 hm T1 C1 B1. subst client. destruct (client_wait_sh_crash P o M w1 s hm (still_self _ T1)) as (H1 & H2 & H3); [rewrite C1; exact C|exact K|].
    pose proof (st_client_wait_sh w1 P o w1 s hm (still_self _ T1)) as St1. unfold all in St1. split; [eapply tctx_still; eauto|]. split; [exact H1|]. split; [exact I|]. split.
    + intros E1 c Ec Eh. destruct (H3 E1) as (sh & n & e & sr & m & H). eapply crash_server_share; [exact Eh|..]; try apply H. destruct H as [H _]. unfold last_message, c_ctx. rewrite Ec.
      destruct St1 as (_ & _ & Fr & _). rewrite Fr, <- B1. exact H.
    + intros [[s' acts] rt] Ea. split; [auto|exact I].
  - apply step_reading; [exact T|exact C|exact I|]. intros w1 hm T1 C1 B1. eapply step_tr; [exact T1|rewrite C1; exact C|exact I|apply tr_client_wait_ee; auto using still_self; rewrite C1; apply C|contradiction].
  - apply step_reading; [exact T|exact C|exact I|]. intros w1 hm T1 C1 B1. eapply step_tr; [exact T1|rewrite C1; exact C|exact I|apply tr_client_wait_cert_cr; auto using still_self|contradiction].
  - apply step_reading; [exact T|exact C|exact I|]. intros w1 hm T1 C1 B1. eapply step_tr; [exact T1|rewrite C1; exact C|exact I|apply tr_client_wait_cert; auto using still_self|contradiction].
  - apply step_reading; [exact T|exact C|exact I|]. intros w1 hm T1 C1 B1. eapply step_tr; [exact T1|rewrite C1; exact C|exact I|apply tr_client_wait_cv; auto using still_self|].
    intros Ec c _ Eh. eapply crash_certificate; eauto.
  - apply step_reading; [exact T|exact C|exact I|]. intros w1 hm T1 C1 B1. eapply step_tr; [exact T1|rewrite C1; exact C|exact I|apply tr_client_wait_finished; auto using still_self|contradiction].
  - apply step_reading; [exact T|exact C|exact I|]. intros w1 hm T1 C1 B1. subst client. pose proof (tr_server_start P X o w1 hm (still_self _ T1)) as Tr. rewrite C1 in Tr. specialize (Tr C).
    eapply step_tr; [exact T1|rewrite C1; exact C|exact I|exact Tr|]. destruct Tr as (S1 & F1 & _). intros (ch & n & U & Hc) c Ec Eh.
    assert (U' : ch_unmarshal 771 (last_message c) = Ok (ch, n)). { unfold last_message, c_ctx. rewrite Ec. destruct S1 as (_ & _ & Fr & _). rewrite Fr, <- B1. exact U. }
    destruct Hc as [(Hp & e & I1 & T44)|(e & shares & m & sr & I1 & T51 & Us & I2 & B)].
    + eapply crash_cookie; eauto. unfold c_cfg. rewrite Ec, (frame_cfg _ _ F1), C1. exact Hp.
    + eapply crash_client_share; eauto.
  - apply (step_tr _ _ w False); [exact T|exact C|exact I| |contradiction]. eapply tr_weaken; [| |apply tr_server_negotiated; eauto; apply C]; [intros []|]. now intros a [].
  - destruct (read_early fuel w) as [w1 r] eqn:Er. pose proof (early_frame_read w fuel w (frame_early_frame _ _ (frame_refl w))) as F. rewrite Er in F. unfold all in F. cbn [fst] in F.
    destruct (read_early_crash _ _ _ _ T Ep Er) as (T1 & E1 & Q1). assert (C1 : w_cfg w1 = w_cfg w) by apply F. destruct r as [u|e| |]; cbn [sbind fst snd].
    + destruct (hr_read fuel o w1) as [w2 r] eqn:Eh. pose proof (frame_hr w1 fuel o w1 (frame_refl w1)) as F2. pose proof (hr_epoch fuel o w1) as Ep2. rewrite Eh in F2, Ep2. unfold all in F2. cbn [fst] in F2, Ep2.
      destruct (hr_read_crash _ _ _ _ _ T1 Eh) as (_ & T2 & Q2 & _). rewrite E1 in Ep2. assert (C2 : w_cfg w2 = w_cfg w) by (rewrite (frame_cfg _ _ F2); exact C1). destruct r as [hm|e| |]; cbn [sbind fst snd].
      * destruct (tr_server_wait_eoed P M w2 k hm (still_self _ T2) K) as (S3 & F3 & H3 & K3). split; [eapply tctx_still; eauto|]. split; [rewrite (frame_cfg _ _ F3), C2; exact C|].
        split. { unfold server_wait_eoed. destruct (negb _); [exact Ep2|]. destruct (hm_body hm); exact Ep2. }
        split; [intros Ex; now destruct (H3 Ex)|]. intros a Ea. split; [auto|]. unfold server_wait_eoed in Ea. destruct (negb _); [discriminate|]. destruct (hm_body hm); [|discriminate].
        apply Ok_inj in Ea. subst a. eexists _, _. reflexivity.
      * split; [exact T2|]. split; [rewrite C2; exact C|]. split; [exact Ep2|]. split; discriminate.
      * split; [exact T2|]. split; [rewrite C2; exact C|]. split; [exact Ep2|]. split; [|discriminate]. intros _ c Ec _. apply stuck_crash. unfold c_ctx. rewrite Ec. auto.
      * split; [exact T2|]. split; [rewrite C2; exact C|]. split; [exact Ep2|]. split; discriminate.
    + split; [exact T1|]. split; [rewrite C1; exact C|]. split; [exact E1|]. split; discriminate.
    + split; [exact T1|]. split; [rewrite C1; exact C|]. split; [exact E1|]. split; [|discriminate]. intros _ c Ec _. apply stuck_crash. unfold c_ctx. rewrite Ec. auto.
    + split; [exact T1|]. split; [rewrite C1; exact C|]. split; [exact E1|]. split; discriminate.
  - destruct (server_read_past fuel w s) as [w1 r] eqn:Er. pose proof (frame_read_past w fuel w s (frame_refl w)) as F. rewrite Er in F. unfold all in F. cbn [fst] in F.
    destruct (read_past_crash _ _ _ _ _ T Er) as (T1 & Q1 & Q2). cbn [fst snd]. split; [exact T1|]. split; [rewrite (frame_cfg _ _ F); exact C|]. split; [exact I|]. split.
    + intros -> c Ec _. apply stuck_crash. unfold c_ctx. rewrite Ec. auto.
    + intros a Ea. rewrite (Q2 a Ea). split; [|exact I]. split; [|constructor]. destruct s; try contradiction. exact K.
  - eapply step_tr; [exact T|exact C|exact I|apply tr_server_wait_flight2; auto|contradiction].
  - apply step_reading; [exact T|exact C|exact I|]. intros w1 hm T1 C1 B1. eapply step_tr; [exact T1|rewrite C1; exact C|exact I|apply tr_server_wait_cert; auto using still_self|contradiction].
  - apply step_reading; [exact T|exact C|exact I|]. intros w1 hm T1 C1 B1. eapply step_tr; [exact T1|rewrite C1; exact C|exact I|apply tr_server_wait_cv; auto using still_self; apply K|contradiction].
  - apply step_reading; [exact T|exact C|exact I|]. intros w1 hm T1 C1 B1. eapply step_tr; [exact T1|rewrite C1; exact C|exact I|apply tr_server_wait_finished; auto using still_self|contradiction].
  - split; [exact T|]. split; [exact C|]. split; [exact I|]. split; [discriminate|]. intros a [= <-]. split; [split; [exact K|constructor]|exact I].
Qed.

Lemma next_early client o fuel w s w' a : tctx (w_ctx w) -> cfg_fine client (w_cfg w) -> hs_ok s -> next P X o fuel w s = (w', Ok a) -> early_in a.
Proof.
  intros T C K H. destruct a as [[s' acts] rt]. destruct (next_eoed _ _ _ _ _ _ _ _ _ _ K H) as [(n & ->)|N].
  - cbn [next hs_ok] in *. destruct (tr_server_negotiated P X o M w n (still_self w T)) as (_ & _ & _ & G); [apply C|exact K|]. rewrite H in G. cbn [snd] in G. now destruct (G _ eq_refl).
  - cbn. destruct s'; try exact I. contradiction.
Qed.
End next.
