(** What the steps of the state machines leave alone. *)
From Verif Require Import Base Syntax Frame Record Timer Handshake Crypto Messages Pki Negotiation Machine Cookie Client Server.

(** The state left by a call satisfies [Q], whether or not the call succeeds. *)
Definition all {S A} (Q : S -> Prop) (p : S * res A) : Prop := Q (fst p).
Lemma all_bind {S A B} (Q : S -> Prop) (p : S * res A) (f : S -> A -> S * res B) :
  all Q p -> (forall s a, p = (s, Ok a) -> Q s -> all Q (f s a)) -> all Q (sbind p f).
Proof. destruct p as [s [a|e| |]]; simpl; auto. Qed.
Lemma all_pair {S A} (Q : S -> Prop) (s : S) (r : res A) : Q s -> all Q (s, r).
Proof. auto. Qed.
Lemma all_imp {S A} (Q R : S -> Prop) (p : S * res A) : (forall s, Q s -> R s) -> all Q p -> all R p.
Proof. unfold all. auto. Qed.

Lemma sbind_ok {S A B} (p : S * res A) (f : S -> A -> S * res B) s b :
  sbind p f = (s, Ok b) -> exists s1 a, p = (s1, Ok a) /\ f s1 a = (s, Ok b).
Proof. destruct p as [s1 [a|e| |]]; simpl; try discriminate. eauto. Qed.
Lemma or_alert_ok {A} (r : res A) n a : or_alert r n = Ok a -> r = Ok a.
Proof. destruct r; simpl; congruence. Qed.

(** Walk through a function body. *)
Ltac walk1 := first
  [ assumption
  | progress intros
  | match goal with |- all _ (sbind _ _) => apply all_bind end
  | match goal with |- all _ (?w, _) => apply all_pair end
  | match goal with |- all _ (let _ := _ in _) => cbv zeta end
  | match goal with |- all _ (match ?x with _ => _ end) => destruct x eqn:? end ].
Ltac walk := repeat walk1.

(** ** Only the context and the hash *)

Definition frame (w0 w : world) : Prop := w_cfg w = w_cfg w0 /\ w_psks w = w_psks w0 /\ w_early w = w_early w0.
Lemma frame_refl w : frame w w.
Proof. unfold frame. auto. Qed.
Lemma frame_ctx w0 w x : frame w0 w -> frame w0 (set_ctx w x).
Proof. auto. Qed.
Lemma frame_hash w0 w x : frame w0 w -> frame w0 (set_hash w x).
Proof. auto. Qed.
Lemma frame_write w0 w x : frame w0 w -> frame w0 (hash_write w x).
Proof. auto. Qed.
Lemma frame_version w0 w v : frame w0 w -> frame w0 (ctx_setVersion w v).
Proof. auto. Qed.
Lemma frame_conn w0 w v : frame w0 w -> frame w0 (set_in_conn w v).
Proof. auto. Qed.
Lemma frame_trans a b c : frame a b -> frame b c -> frame a c.
Proof. unfold frame. intros (?&?&?) (?&?&?). repeat split; congruence. Qed.
#[export] Hint Resolve frame_refl frame_ctx frame_hash frame_write frame_version frame_conn : frame.

Lemma frame_make w0 w b : frame w0 w -> all (frame w0) (makeMessage w b).
Proof. intros H. unfold makeMessage, all. destruct (body_marshal b); simpl; auto with frame. Qed.
Lemma frame_new w0 w b : frame w0 w -> all (frame w0) (newMessage w b).
Proof.
  intros H. unfold newMessage. pose proof (frame_make w0 w b H) as F. destruct (makeMessage w b). exact F.
Qed.
Lemma frame_hr w0 fuel o w : frame w0 w -> all (frame w0) (hr_read fuel o w).
Proof. intros H. unfold hr_read. destruct (hr_read_loop _ _ _ _). now apply all_pair, frame_ctx. Qed.
#[export] Hint Resolve frame_make frame_new frame_hr : frame.
(** A call inside whose effect is known. *)
Ltac known tac := match goal with
  | |- all ?Q (match ?p with _ => _ end) =>
      match type of p with
      | (_ * res _)%type => let F := fresh "F" in assert (all Q p) as F by tac; destruct p as [? ?] eqn:?; unfold all in F; cbn [fst] in F
      end
  end.
Ltac fhint := solve [auto 10 with frame].
Ltac fwalk := repeat first [fhint | known fhint | walk1].

Lemma frame_client_start w0 P o w st : frame w0 w -> all (frame w0) (client_start P o w st).
Proof. intros H. unfold client_start, done. fwalk. Qed.
Lemma frame_client_server_hello w0 P o w st hm sh : frame w0 w -> all (frame w0) (client_server_hello P o w st hm sh).
Proof. intros H. unfold client_server_hello, done. fwalk. Qed.
Lemma frame_client_wait_ee w0 P o w k hm : frame w0 w -> all (frame w0) (client_wait_ee P o w k hm).
Proof. intros H. unfold client_wait_ee, done. fwalk. Qed.
Lemma frame_client_wait_cert_cr w0 X w k hm : frame w0 w -> all (frame w0) (client_wait_cert_cr X w k hm).
Proof. intros H. unfold client_wait_cert_cr, done. fwalk. Qed.
Lemma frame_client_wait_cert w0 X w k cr hm : frame w0 w -> all (frame w0) (client_wait_cert X w k cr hm).
Proof. intros H. unfold client_wait_cert, done. fwalk. Qed.
Lemma frame_client_wait_cv w0 P X o w k cert cr hm : frame w0 w -> all (frame w0) (client_wait_cv P X o w k cert cr hm).
Proof. intros H. unfold client_wait_cv, done. fwalk. Qed.
Lemma frame_client_eoed w0 P w k : frame w0 w -> all (frame w0) (client_eoed P w k).
Proof. intros H. unfold client_eoed. fwalk. Qed.
Lemma frame_client_auth w0 P X o w k certs cr : frame w0 w -> all (frame w0) (client_auth P X o w k certs cr).
Proof. intros H. unfold client_auth. fwalk. Qed.
#[export] Hint Resolve frame_client_eoed frame_client_auth : frame.
Lemma frame_client_wait_finished w0 P X o w k certs cr peer chains hm :
  frame w0 w -> all (frame w0) (client_wait_finished P X o w k certs cr peer chains hm).
Proof. intros H. unfold client_wait_finished, done. fwalk. Qed.
Lemma frame_hrr w0 o w s ses t : frame w0 w -> all (frame w0) (generateHRR o w s ses t).
Proof. intros H. unfold generateHRR. fwalk. Qed.
#[export] Hint Resolve frame_hrr : frame.
Lemma frame_psk w0 P o w ch x f : frame w0 w -> all (frame w0) (server_psk P o w ch x f).
Proof. intros H. unfold server_psk. fwalk. Qed.
Lemma frame_retry w0 P o w ch s hm t : frame w0 w -> all (frame w0) (server_retry P o w ch s hm t).
Proof. intros H. unfold server_retry. fwalk. Qed.
#[export] Hint Resolve frame_psk frame_retry : frame.
Lemma frame_server_start w0 P X o w hm : frame w0 w -> all (frame w0) (server_start P X o w hm).
Proof. intros H. unfold server_start, done. fwalk. Qed.
Lemma frame_server_auth w0 P X o w n ps : frame w0 w -> all (frame w0) (server_auth P X o w n ps).
Proof. intros H. unfold server_auth. fwalk. Qed.
#[export] Hint Resolve frame_server_auth : frame.
Lemma frame_server_negotiated w0 P X o w n : frame w0 w -> all (frame w0) (server_negotiated P X o w n).
Proof. intros H. unfold server_negotiated, done. fwalk. Qed.
Lemma frame_server_wait_eoed w0 P w k hm : frame w0 w -> all (frame w0) (server_wait_eoed P w k hm).
Proof. intros H. unfold server_wait_eoed, done. fwalk. Qed.
Lemma frame_peek w0 fuel : forall w, frame w0 w -> all (frame w0) (peek fuel w).
Proof.
  induction fuel as [|f IH]; intros w H; simpl; [fwalk|]. destruct (peekRecordType (in_conn w)) as [c [t|e| |]]; fwalk.
Qed.
#[export] Hint Resolve frame_peek : frame.
Lemma frame_read_past w0 fuel : forall w nx, frame w0 w -> all (frame w0) (server_read_past fuel w nx).
Proof.
  induction fuel as [|f IH]; intros w nx H; cbn [server_read_past]; [fwalk|]. fwalk.
Qed.
Lemma frame_server_wait_flight2 w0 w k : frame w0 w -> all (frame w0) (server_wait_flight2 w k).
Proof. intros H. unfold server_wait_flight2, done. fwalk. Qed.
Lemma frame_server_wait_cert w0 X w k hm : frame w0 w -> all (frame w0) (server_wait_cert X w k hm).
Proof. intros H. unfold server_wait_cert, done. fwalk. Qed.
Lemma frame_server_wait_cv w0 P X o w k cert hm : frame w0 w -> all (frame w0) (server_wait_cv P X o w k cert hm).
Proof. intros H. unfold server_wait_cv, done. fwalk. Qed.
Lemma frame_server_wait_finished w0 P w k peer hm : frame w0 w -> all (frame w0) (server_wait_finished P w k peer hm).
Proof. intros H. unfold server_wait_finished, done. fwalk. Qed.

(** ** The other steps *)

(** The configuration as it may be after a HelloRetryRequest. *)
Definition cfg_after (c c' : config) : Prop := c' = c \/ exists s, c' = set_suites c [s].
Definition hrr_frame (w0 w : world) : Prop := cfg_after (w_cfg w0) (w_cfg w) /\ w_psks w = w_psks w0 /\ w_early w = w_early w0.
Lemma frame_hrr_frame w0 w : frame w0 w -> hrr_frame w0 w.
Proof. intros (A & B & C). unfold hrr_frame, cfg_after. auto. Qed.
Lemma frame_client_hrr w0 P o w st hm hrr : frame w0 w -> all (hrr_frame w0) (client_hrr P o w st hm hrr).
Proof.
  intros (A & B & C). unfold client_hrr, done.
  assert (forall x w', frame (set_cfg w (set_suites (w_cfg w) [sh_suite hrr])) w' -> hrr_frame w0 (set_ctx w' x)) as K.
  { intros x w' (D & F & G). split; [right; exists (sh_suite hrr); cbn in *; congruence|]. cbn in *. split; congruence. }
  apply (all_imp (frame (set_cfg w (set_suites (w_cfg w) [sh_suite hrr])))).
  { intros w' H. apply (K (w_ctx w') w') in H. destruct w'; exact H. }
  fwalk.
Qed.
Lemma hrr_frame_wait_sh w0 P o w st hm : frame w0 w -> all (hrr_frame w0) (client_wait_sh P o w st hm).
Proof.
  intros H. pose proof (frame_hrr_frame _ _ H) as H'. unfold client_wait_sh. destruct (negb _); [exact H'|].
  apply all_bind; [exact H'|]. intros s [sh n] E _. injection E as <- _.
  destruct (negb _); [exact H'|]. destruct (el_find _ _ _); [|exact H'].
  apply all_bind; [exact H'|]. intros s v E _. injection E as <- _.
  destruct v; [exact H'|]. destruct (negb _); [exact H'|]. destruct (negb _); [exact H'|].
  destruct (beqb _ _); [now apply frame_client_hrr|].
  eapply all_imp; [intros x; apply frame_hrr_frame|]. now apply frame_client_server_hello.
Qed.

Definition early_frame (w0 w : world) : Prop := w_cfg w = w_cfg w0 /\ w_psks w = w_psks w0 /\ exists x, w_early w = w_early w0 ++ x.
Lemma frame_early_frame w0 w : frame w0 w -> early_frame w0 w.
Proof. intros (A & B & C). repeat split; auto. exists []. now rewrite app_nil_r. Qed.
Lemma early_frame_more w0 w x : early_frame w0 w -> early_frame w0 (set_early w (w_early w ++ x)).
Proof. intros (A & B & y & C). repeat split; auto. exists (y ++ x). cbn. now rewrite C, app_assoc. Qed.
Lemma early_frame_frame a b c : early_frame a b -> frame b c -> early_frame a c.
Proof. intros (A & B & y & C) (D & F & G). repeat split; try congruence. exists y. congruence. Qed.
Lemma early_frame_read w0 fuel : forall w, early_frame w0 w -> all (early_frame w0) (read_early fuel w).
Proof.
  induction fuel as [|f IH]; intros w H; cbn [read_early]; [exact H|].
  destruct (negb _); [exact H|].
  pose proof (frame_peek w (S f) w (frame_refl w)) as F. destruct (peek (S f) w) as [w' [t|e| |]]; unfold all in F; cbn [fst] in F;
    pose proof (early_frame_frame _ _ _ H F) as H'; try exact H'.
  destruct (negb _); [exact H'|]. destruct (readRecord (in_conn w')) as [c [pt|e| |]]; try exact H'.
  apply IH. now apply early_frame_more.
Qed.

Definition step_frame (s : hstate) (w0 w : world) : Prop :=
  match s with CWaitSH _ => hrr_frame w0 w | SWaitEOED _ => early_frame w0 w | _ => frame w0 w end.
Lemma frame_next P X o fuel w s : all (step_frame s w) (next P X o fuel w s).
Proof.
  assert (forall Q f, (forall w' hm, frame w w' -> all Q (f w' hm)) -> (forall w', frame w w' -> Q w') ->
            all Q (sbind (S := world) (B := outcome) (hr_read fuel o w) f)) as R.
  { intros Q f Hf Hq. pose proof (frame_hr w fuel o w (frame_refl w)) as F.
    destruct (hr_read fuel o w) as [w1 [hm|e| |]]; unfold all in F; cbn [fst sbind] in *; [now apply Hf| | |]; apply Hq, F. }
  destruct s; cbn [next step_frame]; try (apply R; [|solve [intros ? ?; cbv beta; auto using frame_hrr_frame]]; intros w' hm F).
  - now apply frame_client_start, frame_refl.
  - apply (R (hrr_frame w)); [|apply frame_hrr_frame]. intros w' hm F. now apply hrr_frame_wait_sh.
  - now apply frame_client_wait_ee.
  - now apply frame_client_wait_cert_cr.
  - now apply frame_client_wait_cert.
  - now apply frame_client_wait_cv.
  - now apply frame_client_wait_finished.
  - now apply frame_server_start.
  - apply frame_server_negotiated, frame_refl.
  - pose proof (early_frame_read w fuel w (frame_early_frame _ _ (frame_refl w))) as F.
    destruct (read_early fuel w) as [w1 [u|e| |]]; unfold all in F; cbn [fst sbind] in *; try exact F.
    pose proof (frame_hr w1 fuel o w1 (frame_refl w1)) as G.
    destruct (hr_read fuel o w1) as [w2 [hm|e| |]]; unfold all in G; cbn [fst sbind] in *;
      try (exact (early_frame_frame _ _ _ F G)).
    eapply all_imp; [intros x Hx; exact (early_frame_frame _ _ _ F Hx)|]. now apply frame_server_wait_eoed.
  - apply frame_read_past, frame_refl.
  - apply frame_server_wait_flight2, frame_refl.
  - now apply frame_server_wait_cert.
  - now apply frame_server_wait_cv.
  - now apply frame_server_wait_finished.
  - apply frame_refl.
Qed.

(** ** The connected state *)

Lemma frame_key_update w0 P w c r : frame w0 w -> frame w0 (fst (fst (keyUpdate P w c r))).
Proof.
  intros H. unfold keyUpdate. destruct (sc_isClient c); pose proof (frame_new w0 w (BKeyUpdate r) H) as F;
    destruct (newMessage w (BKeyUpdate r)); exact F.
Qed.
Lemma frame_ticket w0 P o w c : frame w0 w -> all (frame w0) (newTicket P o w c).
Proof. intros H. unfold newTicket. fwalk. Qed.
Lemma frame_process w0 P X o w c hm : frame w0 w -> all (frame w0) (processMessage P X o w c hm).
Proof.
  intros H. unfold processMessage. apply all_bind; [exact H|]. intros w' b E H'. destruct b; try exact H'.
  - destruct (negb _); exact H'.
  - destruct (negb (sc_isClient c)); cbv zeta;
    (match goal with |- context [?q =? KeyUpdateRequested] => destruct (q =? KeyUpdateRequested); [|exact H'] end);
    match goal with |- context [keyUpdate P w' ?c0 ?r] => pose proof (frame_key_update w0 P w' c0 r H') as F;
      destruct (keyUpdate P w' c0 r) as [[w1 c1] r1]; exact F end.
Qed.
