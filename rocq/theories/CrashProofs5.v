(** C45: where a panic can come from in a connection over a stream: actions, alerts and calls. *)
From Verif Require Import Base Syntax SyntaxProofs3 Frame FrameProofs Record RecordSpec RecordProofs Timer Handshake Crypto CryptoSpec Messages MessageSpec Pki Negotiation Machine Cookie Client Server
  MachineProofs StillProofs CalmProofs StepProofs CtxProofs Conn ConnSpec ConnProofs CrashSpec CrashProofs CrashProofs2 CrashProofs3 CrashProofs4.

(** ** Layers *)

Lemma fine_rekey d l e k iv : rl_fine d l -> (8 <= List.length iv)%nat -> rl_fine d (upd_core l (rekey (l_core l) e k iv)).
Proof.
  intros [(C1 & C2 & C3) F] H. split; [|exact F]. unfold core_fine, upd_core, rekey. cbn. split; [exact C1|]. split; [exact C2|]. apply Forall_app. split; [exact C3|]. constructor; [|constructor]. intros _. exact H.
Qed.
Lemma fine_reset d l n : rl_fine d l -> rl_fine d (upd_core l (resetClear (l_core l) n)).
Proof.
  intros [(C1 & C2 & C3) F]. split; [|exact F]. unfold core_fine, upd_core, resetClear. cbn. split; [exact C1|]. split; [exact C2|]. apply Forall_app. split; [exact C3|]. constructor; [|constructor]. intros H. now contradiction H.
Qed.
Lemma rekey_epoch r e k iv : rl_epoch (rekey r e k iv) = e.
Proof. unfold rl_epoch, rekey, get_cs. cbn. rewrite app_nth2, Nat.sub_diag by lia. reflexivity. Qed.
Lemma layer_rekey_crash E d l e k l' r : rl_fine d l -> keys_fine k -> layer_rekey E l e k = (l', r) ->
  rl_fine d l' /\ r <> Panic /\ (r = Ok tt -> rl_epoch (l_core l') = e) /\ (r <> Ok tt -> l' = l).
Proof.
  intros F [K1 K2]. unfold layer_rekey. unfold known_id in K1. destruct (cipherSuiteMap _); [|now contradiction K1].
  destruct (_ || _); intros [= <- <-].
  - split; [now apply fine_rekey|]. split; [discriminate|]. split; [intros _; apply rekey_epoch|congruence].
  - split; [exact F|]. split; [discriminate|]. split; [discriminate|auto].
Qed.
Lemma upd_in_tctx c l : tctx (c_ctx c) -> rl_fine DirRead l -> tctx (c_ctx (upd_in c l)).
Proof. intros T F. pose proof T as (T1 & T2 & T3 & T4 & T5 & T6 & T7 & T8). now apply tctx_in. Qed.
Lemma upd_out_tctx c l : tctx (c_ctx c) -> rl_fine DirWrite l -> tctx (c_ctx (upd_out c l)).
Proof. intros T F. pose proof T as (T1 & T2 & T3 & T4 & T5 & T6 & T7 & T8). now apply tctx_out. Qed.

Definition epoch_in (c : conn) : N := in_epoch (c_world c).

(** ** Actions *)

Lemma take_crash E now c a c' r : tctx (c_ctx c) -> fine_act a -> cf_psks (c_cfg c) <> None -> cf_useDTLS (c_cfg c) = false -> takeAction E now c a = (c', r) ->
  tctx (c_ctx c') /\ (r = Panic -> worn_out (c_out c')) /\
  match a with RekeyIn e _ => (r = Ok tt -> epoch_in c' = e) /\ (r <> Ok tt -> epoch_in c' = epoch_in c) | _ => epoch_in c' = epoch_in c end.
Proof.
  intros T Fa Ps D. pose proof T as (T1 & T2 & T3 & T4 & T5 & T6 & T7 & T8). destruct a as [m| |e k|e k|n|p]; cbn [takeAction fine_act] in *.
  - unfold queueMessage. rewrite T4. destruct (writeMessages (c_ctx c) [m]) as [x q] eqn:Ew. destruct (writeMessages_crash _ _ _ _ T (Forall_cons _ Fa (Forall_nil _)) Ew) as (Tx & Sx & Qx).
    intros [= <- <-]. split; [exact Tx|]. split; [|unfold epoch_in, in_epoch, in_conn; cbn; now rewrite Sx]. intros K. apply Qx. destruct q; cbn in K; congruence.
  - unfold sendQueued. rewrite T8. cbn [writeMessages]. rewrite T4. cbn [or_alert sbind]. destruct (cf_useDTLS _) eqn:D'. { exfalso. unfold c_cfg in D', D. cbn in D'. congruence. }
    intros [= <- <-]. split; [|split; [discriminate|reflexivity]]. unfold clearQueued, c_ctx. cbn. apply tctx_out; cbn; auto.
  - destruct (f_rem _). 2:{ intros [= <- <-]. split; [exact T|]. split; [discriminate|]. split; [discriminate|reflexivity]. }
    destruct (layer_rekey E (c_in c) e k) as [l q] eqn:El. destruct (layer_rekey_crash _ _ _ _ _ _ _ T1 Fa El) as (L1 & L2 & L3 & L4).
    intros [= <- <-]. split; [now apply upd_in_tctx|]. split; [destruct q; cbn; congruence|]. split; intros K.
    + apply L3. destruct q as [[]| | |]; cbn in K; congruence.
    + unfold epoch_in, in_epoch, in_conn. cbn. rewrite L4; [reflexivity|]. intros ->. now contradiction K.
  - destruct (layer_rekey E (c_out c) e k) as [l q] eqn:El. destruct (layer_rekey_crash _ _ _ _ _ _ _ T2 Fa El) as (L1 & L2 & L3 & L4).
    intros [= <- <-]. split; [now apply upd_out_tctx|]. split; [destruct q; cbn; congruence|reflexivity].
  - intros [= <- <-]. split; [apply upd_out_tctx; [exact T|]; now apply fine_reset|]. split; [discriminate|reflexivity].
  - destruct (cf_psks _); [|now contradiction Ps]. intros [= <- <-]. split; [exact T|]. split; [discriminate|reflexivity].
Qed.
Lemma take_cfg E now c a : c_cfg (fst (takeAction E now c a)) = c_cfg c.
Proof. pose proof (cframe_actions E now c [a] c (cframe_refl c)) as H. cbn [takeActions] in H. unfold all in H. destruct (takeAction E now c a) as [c' [u|e| |]]; apply H. Qed.
Lemma acts_crash E now l : forall c c' r, tctx (c_ctx c) -> Forall fine_act l -> cf_psks (c_cfg c) <> None -> cf_useDTLS (c_cfg c) = false -> takeActions E now c l = (c', r) ->
  tctx (c_ctx c') /\ (r = Panic -> worn_out (c_out c')) /\
  (forall front e k, l = front ++ [RekeyIn e k] -> r = Ok tt -> epoch_in c' = e) /\ (forall e k, l = [RekeyIn e k] -> r <> Ok tt -> epoch_in c' = epoch_in c).
Proof.
  induction l as [|a l IH]; intros c c' r T F Ps D; cbn [takeActions].
  { intros [= <- <-]. split; [exact T|]. split; [discriminate|]. split; [intros [|] ? ?; discriminate|discriminate]. }
  inversion F as [|? ? Fa Fl]; subst. destruct (takeAction E now c a) as [c1 q] eqn:Et. pose proof (take_cfg E now c a) as Ec. rewrite Et in Ec. cbn [fst] in Ec.
  destruct (take_crash _ _ _ _ _ _ T Fa Ps D Et) as (T1 & Q1 & Q2). destruct q as [[]|e| |]; cbn [sbind].
  - intros H. rewrite <- Ec in Ps, D. destruct (IH _ _ _ T1 Fl Ps D H) as (T' & W & A & B). split; [exact T'|]. split; [exact W|]. split.
    + intros [|x front] e k El Er.
      * cbn in El. injection El as -> ->. cbn [takeActions] in H. injection H as <- <-. now apply Q2.
      * cbn in El. injection El as -> ->. eapply A; eauto.
    + intros e k El Er. injection El as -> ->. cbn [takeActions] in H. injection H as <- <-. now contradiction Er.
  - intros [= <- <-]. split; [exact T1|]. split; [discriminate|]. split; [discriminate|]. intros e0 k El _. injection El as -> ->. apply Q2. discriminate.
  - intros [= <- <-]. split; [exact T1|]. split; [exact Q1|]. split; [discriminate|]. intros e0 k El _. injection El as -> ->. apply Q2. discriminate.
  - intros [= <- <-]. split; [exact T1|]. split; [discriminate|]. split; [discriminate|]. intros e0 k El _. injection El as -> ->. apply Q2. discriminate.
Qed.

(** ** Alerts *)

Lemma alert_crash c a c' r : tctx (c_ctx c) -> sendAlert c a = (c', r) -> tctx (c_ctx c') /\ epoch_in c' = epoch_in c /\ (r = Panic -> worn_out (c_out c')).
Proof.
  intros T. unfold sendAlert. destruct (writeRecord _ _) as [l q] eqn:Ew. destruct (write_crash _ _ _ _ (proj1 (proj2 T)) Ew) as (F & Q1 & Q2). pose proof (upd_out_tctx c l T F) as T'.
  assert (K : forall b : bool, tctx (c_ctx (if b then upd_out c l else set_closed (upd_out c l))) /\ epoch_in (if b then upd_out c l else set_closed (upd_out c l)) = epoch_in c).
  { intros b. destruct b; (split; [exact T'|reflexivity]). }
  destruct q; intros [= <- <-].
  - destruct (K ((if (a =? AlertNoRenegotiation) || (a =? AlertCloseNotify) then AlertLevelWarning else AlertLevelError) =? AlertLevelWarning)). split; [assumption|]. split; [assumption|discriminate].
  - destruct (K ((if (a =? AlertNoRenegotiation) || (a =? AlertCloseNotify) then AlertLevelWarning else AlertLevelError) =? AlertLevelWarning)). split; [assumption|]. split; [assumption|discriminate].
  - split; [exact T'|]. split; [reflexivity|]. intros _. now apply Q2.
  - split; [exact T'|]. split; [reflexivity|discriminate].
Qed.
Lemma sent_crash {A} c a (r0 : res A) c' r : r0 <> Panic -> tctx (c_ctx c) -> sbind (sendAlert c a) (fun c _ => (c, r0)) = (c', r) ->
  tctx (c_ctx c') /\ epoch_in c' = epoch_in c /\ (r = Panic -> worn_out (c_out c')).
Proof.
  intros N T. destruct (sendAlert c a) as [c1 q] eqn:Es. destruct (alert_crash _ _ _ _ T Es) as (T1 & E1 & Q). destruct q; cbn [sbind]; intros [= <- <-]; (split; [exact T1|]); (split; [exact E1|]); auto; try discriminate. congruence.
Qed.

(** ** The invariant *)

Definition cok (client : bool) (c : conn) : Prop :=
  tctx (c_ctx c) /\ (client = true -> w_early (c_world c) = []) /\ (c_hState c <> None -> cfg_fine client (c_cfg c)) /\
  (forall s, c_hState c = Some s -> hs_ok s /\ eoed_epoch s (c_world c)) /\ (c_complete c = true -> known (sc_suite (c_state c))).

(** Only the keys and the buffers changed. *)
Lemma cok_frame client c c' : cok client c -> cframe c c' -> tctx (c_ctx c') -> (forall s, c_hState c = Some s -> eoed_epoch s (c_world c')) -> cok client c'.
Proof.
  intros (A & B & C & D & F) (K1 & K2 & K3 & K4 & K5 & K6 & K7) T H. unfold cok. rewrite K2, K3, K4, K6, K7. split; [exact T|]. split; [exact B|]. split; [exact C|]. split; [|exact F]. intros s Es. split; [now apply D|auto].
Qed.
Lemma eoed_same s w w' : in_epoch w' = in_epoch w -> eoed_epoch s w -> eoed_epoch s w'.
Proof. unfold eoed_epoch. destruct s; auto. now intros ->. Qed.
Lemma cok_same client c c' : cok client c -> cframe c c' -> tctx (c_ctx c') -> epoch_in c' = epoch_in c -> cok client c'.
Proof. intros K F T H. eapply cok_frame; eauto. intros s Es. destruct K as (_ & _ & _ & K & _). eapply eoed_same; [exact H|]. now apply K. Qed.

Section calls.
Variables (E : env) (cfg : config) (client : bool).
Let P := v_prims E.
Hypothesis M : mac_sized P.
Hypothesis Sc : sound_config cfg.

Definition run {A} (p : conn * res A) : Prop := cok client (fst p) /\ (snd p = Panic -> crash P (fst p)).
Lemma run_calm {A} c (r : res A) : cok client c -> r <> Panic -> run (c, r).
Proof. intros H N. split; [exact H|]. intros K. now destruct N. Qed.
Lemma run_fails {A} c a (r0 : res A) : r0 <> Panic -> cok client c -> run (sbind (sendAlert c a) (fun c _ => (c, r0))).
Proof.
  intros N K. pose proof (cframe_alert c c a (cframe_refl c)) as Fr. destruct (sbind (sendAlert c a) (fun c _ => (c, r0))) as [c' r] eqn:Es.
  destruct (sent_crash _ _ _ _ _ N (proj1 K) Es) as (T & Ep & Q). split; cbn [fst snd].
  - eapply cok_same; eauto. unfold all in Fr. destruct (sendAlert c a) as [c1 q]. cbn [fst] in Fr. destruct q; cbn [sbind] in Es; injection Es as <- _; exact Fr.
  - intros H. apply crash_worn_out. auto.
Qed.

Lemma inv_dtls c : inv cfg client c -> cf_useDTLS (c_cfg c) = false.
Proof.
  intros I. pose proof (inv_cfg _ _ _ I) as H. destruct Sc as (D & _). unfold cfg_now in H. destruct (started c).
  - destruct H as [->|[(_ & s & ->)|(_ & _ & _ & _ & p & ->)]]; exact D.
  - destruct H as [->| ->]; exact D.
Qed.
Lemma known_sound l : Forall (fun s => s = 0x1301 \/ s = 0x1302) l -> Forall known_id l.
Proof. apply Forall_impl. intros a [->| ->]; discriminate. Qed.
Lemma init_fine : cfg_fine true (cfg_init cfg).
Proof.
  destruct Sc as (D & S & C & H). unfold cfg_fine, cfg_init. cbn. split; [exact H|]. split.
  - destruct (cf_cipherSuites cfg); [|apply known_sound; exact S]. repeat constructor; discriminate.
  - split; [exact C|]. split; [destruct (cf_psks cfg); discriminate|discriminate].
Qed.

(** *** After the handshake *)

Lemma ticket_crash o w k : tctx (w_ctx w) -> tr w False (Forall fine_act) (newTicket P o w k).
Proof.
  intros T. pose proof (still_self w T) as S. pose proof (frame_refl w) as F. unfold newTicket.
  apply tr_np; auto. { apply np_alert. unfold newSessionTicket. destruct (o_ticket o); discriminate. } intros tkt _.
  apply tr_np; auto. { apply np_alert, np_add. unfold tedi_marshal. apply np_marshal. } intros exts _. cbv zeta.
  eapply tr_call; [apply tr_new; auto|]. cbv beta. intros w1 m S1 F1 Hm. apply tr_ok; auto. repeat constructor. exact Hm.
Qed.
Lemma update_crash w k r : tctx (w_ctx w) -> known (sc_suite k) -> let p := keyUpdate P w k r in
  tctx (w_ctx (fst (fst p))) /\ sc_suite (snd (fst p)) = sc_suite k /\ snd p <> Panic /\ forall a, snd p = Ok a -> Forall fine_act a.
Proof.
  intros T K. pose proof (still_self w T) as S. pose proof (frame_refl w) as F. cbv zeta. unfold keyUpdate.
  set (q := if sc_isClient k then _ else _). assert (Hq : sc_suite (fst q) = sc_suite k /\ keys_fine (snd q)).
  { subst q. destruct (sc_isClient k); (split; [reflexivity|]); apply keys_fine_make; auto. }
  destruct q as [k' keys]. cbn [fst snd] in Hq. destruct Hq as [Q1 Q2]. destruct (tr_new w False w (BKeyUpdate r) S F) as (S1 & F1 & N1 & G1).
  destruct (newMessage w (BKeyUpdate r)) as [w1 r1]. cbn [fst snd] in *. split; [eapply tctx_still; eauto|]. split; [exact Q1|]. split.
  - destruct r1; cbn [bind]; try discriminate. intros _. now apply N1.
  - intros a Ea. destruct r1 as [m|e| |]; cbn [bind] in Ea; try discriminate. apply Ok_inj in Ea. subst a. constructor; [exact (G1 m eq_refl)|]. constructor; [exact I|]. constructor; [exact Q2|constructor].
Qed.
Lemma process_crash o w k hm : tctx (w_ctx w) -> known (sc_suite k) -> let p := processMessage P (v_pki E) o w k hm in
  tctx (w_ctx (fst p)) /\ snd p <> Panic /\ forall k' a, snd p = Ok (k', a) -> sc_suite k' = sc_suite k /\ Forall fine_act a.
Proof.
  intros T K. cbv zeta. unfold processMessage. pose proof (calm_toBody (x_parses (v_pki E)) (hm_type hm) (hm_body hm)) as Nb. apply np_calm in Nb.
  destruct (toBody _ _ _) as [b|e| |]; cbn [or_alert sbind fst snd]; [|split; [exact T|]; split; discriminate|now contradiction Nb|split; [exact T|]; split; discriminate].
  assert (Triv : forall n, tctx (w_ctx (fst (w, @alert (connected * list action) n))) /\ snd (w, @alert (connected * list action) n) <> Panic /\
     forall k' a, snd (w, @alert (connected * list action) n) = Ok (k', a) -> sc_suite k' = sc_suite k /\ Forall fine_act a).
  { intros n. split; [exact T|]. split; discriminate. }
  destruct b as [ | | | | | | | |request| ]; try apply Triv.
  - destruct (negb (sc_isClient k)); [apply Triv|]. split; [exact T|]. split; [discriminate|]. intros k' a [= <- <-]. split; [reflexivity|]. repeat constructor.
  - set (q := if negb (sc_isClient k) then _ else _). assert (Hq : sc_suite (fst q) = sc_suite k /\ keys_fine (snd q)).
    { subst q. destruct (negb (sc_isClient k)); (split; [reflexivity|]); apply keys_fine_make; auto. }
    destruct q as [k1 keys]. cbn [fst snd] in Hq. destruct Hq as [Q1 Q2]. cbv zeta. destruct (request =? KeyUpdateRequested).
    + assert (K1 : known (sc_suite k1)) by (rewrite Q1; exact K). pose proof (update_crash w k1 KeyUpdateNotRequested T K1) as U. cbv zeta in U.
      destruct (keyUpdate P w k1 KeyUpdateNotRequested) as [[w2 k2] r2]. cbn [fst snd] in *. destruct U as (T2 & S2 & N2 & G2). split; [exact T2|]. split.
      * destruct r2; cbn [bind]; try discriminate. now contradiction N2.
      * intros k' a Ea. destruct r2 as [more|e| |]; cbn [bind] in Ea; try discriminate. injection Ea as <- <-. split; [congruence|]. constructor; [exact Q2|]. now apply G2.
    + split; [exact T|]. split; [discriminate|]. intros k' a [= <- <-]. split; [exact Q1|]. constructor; [exact Q2|constructor].
Qed.

(** *** The handshake *)

Lemma cok_world_early c d : client = false -> cok client c -> cok client (set_world c (set_early (c_world c) d)).
Proof. intros N (A & B & C & D & F). split; [exact A|]. split; [congruence|]. split; [exact C|]. split; [exact D|exact F]. Qed.
Lemma cok_buffer c b : cok client c -> cok client (set_readBuffer c b).
Proof. auto. Qed.
(** A step that keeps the configuration, in a state that does not care about the epoch. *)
Lemma cok_world c w : cok client c -> frame (c_world c) w -> tctx (w_ctx w) -> (forall s, c_hState c = Some s -> eoed_epoch s w) -> cok client (set_world c w).
Proof. intros K F T H. eapply cok_frame; [exact K|now apply frame_cframe|exact T|exact H]. Qed.
Lemma acts_run now c l (N : cok client c) : Forall fine_act l -> cf_psks (c_cfg c) <> None -> cf_useDTLS (c_cfg c) = false ->
  (forall s, c_hState c = Some s -> not_eoed s) -> run (takeActions E now c l).
Proof.
  intros F Ps D Ne. pose proof (cframe_actions E now c l c (cframe_refl c)) as Fr. unfold all in Fr. destruct (takeActions E now c l) as [c' r] eqn:Et. cbn [fst] in Fr.
  destruct (acts_crash _ _ _ _ _ _ (proj1 N) F Ps D Et) as (T & W & _ & _). split; cbn [fst snd].
  - eapply cok_frame; eauto. intros s Es. specialize (Ne s Es). destruct s; try exact I. contradiction.
  - intros H. apply crash_worn_out. auto.
Qed.
Lemma connected_crash o c k : c_isClient c = client -> cf_useDTLS (c_cfg c) = false -> cok client c -> c_hState c = Some (Connected k) -> run (on_connected E o c k).
Proof.
  intros Ro D K Eh. unfold on_connected. set (c1 := set_complete c k).
  assert (K1 : cok client c1). { destruct K as (A & B & C & Dd & F). split; [exact A|]. split; [exact B|]. split; [exact C|]. split; [exact Dd|]. intros _. cbn. exact (proj1 (Dd _ Eh)). }
  cbv zeta. change (c_isClient c1) with (c_isClient c). rewrite Ro. destruct (Bool.bool_dec client true) as [Ecl|Ecl].
  { rewrite Ecl at 1. pose proof K1 as (_ & B & _). rewrite (B Ecl). apply run_calm; [exact K1|discriminate]. }
  apply Bool.not_true_is_false in Ecl. rewrite Ecl at 1.
  assert (Ps : cf_psks (c_cfg c) <> None). { destruct K as (_ & _ & C & _). rewrite Eh in C. apply C. discriminate. }
  assert (Fin : forall p : conn * res unit, run p -> (forall c2, fst p = c2 -> snd p = Ok tt -> True) ->
    run (sbind p (fun c _ => (match w_early (c_world c) with [] => c | early => set_readBuffer (set_world c (set_early (c_world c) [])) early end, Ok tt)))).
  { intros [c2 r2] [G1 G2] _. cbn [fst snd] in *. destruct r2; cbn [sbind]; [|apply run_calm; [exact G1|discriminate]|split; [exact G1|exact G2]|apply run_calm; [exact G1|discriminate]].
    apply run_calm; [|discriminate]. destruct (w_early (c_world c2)); [exact G1|]. apply cok_buffer, cok_world_early; auto. }
  apply Fin; [|auto]. clear Fin. change (c_cfg c1) with (c_cfg c). destruct (cf_sendSessionTickets (c_cfg c)); [|apply run_calm; [exact K1|discriminate]].
  destruct (ticket_crash o (c_world c1) k (proj1 K1)) as (S2 & F2 & N2 & G2). destruct (newTicket (v_prims E) o (c_world c1) k) as [w r] eqn:Et. unfold P in *. rewrite Et in *. cbn [fst snd] in *.
  assert (K2 : cok client (set_world c1 w)). { apply cok_world; [exact K1|exact F2|eapply tctx_still; [exact S2|exact (proj1 K1)]|]. intros s Es. cbn in Es. rewrite Eh in Es. injection Es as <-. exact I. }
  destruct r as [acts|e| |]; [|apply run_calm; [exact K2|discriminate]|now destruct (N2 eq_refl)|apply run_calm; [exact K2|discriminate]].
  assert (C2 : c_cfg (set_world c1 w) = c_cfg c) by exact (frame_cfg _ _ F2).
  assert (R : run (takeActions E (o_ms o) (set_world c1 w) acts)). { apply acts_run; [exact K2|now apply G2|rewrite C2; exact Ps|rewrite C2; exact D|]. intros s Es. cbn in Es. rewrite Eh in Es. injection Es as <-. exact I. }
  destruct (takeActions E (o_ms o) (set_world c1 w) acts) as [c3 [u|[a| |]| |]]; try exact R. apply run_fails; [discriminate|exact (proj1 R)].
Qed.

Lemma turn_crash fuel o c s : inv cfg client c -> cok client c -> c_hState c = Some s -> not_connected s -> run (handshake_turn E fuel o c s).
Proof.
  intros Iv K Eh Nc. pose proof K as (T & Ke & Kc & Ks & Kn). destruct (Ks _ Eh) as [Hs He]. assert (Cf : cfg_fine client (c_cfg c)) by (apply Kc; congruence).
  pose proof (inv_state _ _ _ Iv _ Eh) as So. pose proof (next_crash E M client o fuel (c_world c) s T Cf Hs So He) as St. cbv zeta in St.
  pose proof (frame_next (v_prims E) (v_pki E) o fuel (c_world c) s) as Fn. unfold all in Fn. unfold handshake_turn.
  pose proof (fun w' a => next_early E M client o fuel (c_world c) s w' a T Cf Hs) as Ne. pose proof (wx_next (c_world c) (v_prims E) (v_pki E) o fuel (c_world c) s (wx_refl _)) as Wx.
  destruct (next (v_prims E) (v_pki E) o fuel (c_world c) s) as [w r]. cbn [fst snd] in *. destruct St as (Tw & Cw & Ew & Pw & Gw).
  set (c1 := set_world c w) in *. assert (K1 : cok client c1).
  { split; [exact Tw|]. split. { intros Cl. specialize (Ke Cl). destruct s; cbn [step_frame state_ok] in Fn, So; try (destruct Fn as (_ & _ & Fe); cbn; congruence); congruence. }
    split; [intros _; exact Cw|]. split; [|exact Kn]. intros s' Es. assert (s' = s) as -> by (cbn in Es; congruence). split; [exact Hs|exact Ew]. }
  assert (I1 : inv cfg client c1). { apply (inv_step cfg client c s w Iv Eh Fn). exact Wx. }
  destruct r as [[[s' acts] rt]|[a| |m]| |].
  - destruct (Gw _ eq_refl) as [[Hs' Fa] Ea]. specialize (Ne w _ eq_refl).
    assert (Ps : cf_psks (c_cfg c1) <> None) by apply Cw. pose proof (inv_dtls c1 I1) as D.
    pose proof (cframe_actions E (o_ms o) c1 acts c1 (cframe_refl c1)) as Fr. unfold all in Fr.
    destruct (takeActions E (o_ms o) c1 acts) as [c2 q] eqn:Et. cbn [fst] in Fr. destruct (acts_crash E _ _ c1 _ _ Tw Fa Ps D Et) as (T2 & W2 & A2 & B2).
    assert (K2 : q <> Ok tt -> cok client c2).
    { intros Nq. eapply cok_frame; [exact K1|exact Fr|exact T2|]. intros s0 Es. assert (s0 = s) as -> by (cbn in Es; congruence). destruct s; try exact I. cbn [eoed_acts] in Ea. destruct Ea as (e & kk & ->).
      cbn [eoed_epoch] in Ew |- *. rewrite <- Ew. now apply (B2 e kk). }
    destruct q as [[]|[a| |m]| |].
    + assert (K3 : cok client (set_hState c2 s')).
      { destruct Fr as (F1 & F2 & F3 & F4 & F5 & F6 & F7). destruct K1 as (_ & B & C & _ & F). split; [exact T2|]. split; [intros Cl; cbn; rewrite F7; now apply B|].
        split; [intros _; unfold c_cfg in *; cbn; rewrite F6; exact Cw|]. split; [|cbn; rewrite F2, F4; exact F]. intros s0 Es. cbn in Es. injection Es as <-. split; [exact Hs'|]. cbn.
        destruct s'; try exact I. cbn [early_in] in Ne. destruct Ne as (front & k0 & ->). cbn [eoed_epoch]. eapply A2; reflexivity. }
      destruct s' as [ | | | | | | | | | | | | | | |k]; cbn [sbind]; try (apply run_calm; [exact K3|discriminate]).
      assert (R : run (on_connected E o (set_hState c2 (Connected k)) k)).
      { destruct Fr as (F1 & F2 & F3 & F4 & F5 & F6 & F7). apply connected_crash; [cbn; rewrite F1; exact (inv_role _ _ _ Iv)|unfold c_cfg in *; cbn; rewrite F6; exact D|exact K3|reflexivity]. }
      destruct (on_connected E o (set_hState c2 (Connected k)) k) as [c4 [u|e| |]]; destruct R as [R1 R2]; cbn [sbind]; cbn [fst snd] in *.
      * apply run_calm; [exact R1|discriminate].
      * apply run_calm; [exact R1|discriminate].
      * split; auto.
      * apply run_calm; [exact R1|discriminate].
    + apply run_fails; [discriminate|]. apply K2. discriminate.
    + apply run_calm; [apply K2; discriminate|discriminate].
    + apply run_calm; [apply K2; discriminate|discriminate].
    + split; cbn [fst snd]; [apply K2; discriminate|]. intros _. apply crash_worn_out. auto.
    + apply run_calm; [apply K2; discriminate|discriminate].
  - destruct (a =? AlertWouldBlock).
    + destruct Tw as (_ & _ & Td & _). change (hl_datagram (x_in (c_ctx c1))) with (hl_datagram (x_in (w_ctx w))). rewrite Td. apply run_calm; [exact K1|discriminate].
    + destruct (a =? AlertCloseNotify); [apply run_fails; [discriminate|exact K1]|apply run_calm; [exact K1|discriminate]].
  - apply run_calm; [exact K1|discriminate].
  - apply run_calm; [exact K1|discriminate].
  - split; [exact K1|]. intros _. apply Pw; auto.
  - apply run_calm; [exact K1|discriminate].
Qed.

Lemma run_bind {A B} (p : conn * res A) (f : conn -> A -> conn * res B) : run p -> (forall c a, p = (c, Ok a) -> cok client c -> run (f c a)) -> run (sbind p f).
Proof.
  destruct p as [c [a|e| |]]; intros [K1 K2] H; cbn [sbind fst snd] in *; [now apply H|apply run_calm; [exact K1|discriminate]|split; [exact K1|intros _; now apply K2]|apply run_calm; [exact K1|discriminate]].
Qed.
Lemma loop_crash fuel os : forall c s, inv cfg client c -> cok client c -> c_hState c = Some s -> run (handshake_loop E fuel os c s).
Proof.
  induction os as [|o os IH]; intros c s Iv K Eh.
  - destruct s; apply run_calm; auto; discriminate.
  - assert (G : not_connected s -> run (call c, '(s, retry) <- handshake_turn E fuel o c s;
      if cf_nonBlocking (c_cfg c) then (c, if retry : bool then alert AlertStatelessRetry else Ok tt) else handshake_loop E fuel os c s)).
    { intros Nc. pose proof (inv_turn E fuel o cfg client c s Iv Eh Nc) as It. apply run_bind; [now apply turn_crash|]. intros c1 [s1 rt] Et K1. rewrite Et in It. unfold all in It. cbn [fst] in It.
      destruct (cf_nonBlocking _); [apply run_calm; [exact K1|destruct rt; discriminate]|]. apply IH; [exact It|exact K1|]. eapply turn_hstate; exact Et. }
    destruct s; try (apply G; exact I). apply run_calm; [exact K|discriminate].
Qed.

Lemma not_started c : inv cfg client c -> c_hState c = None -> c_complete c = false.
Proof. intros Iv S. rewrite (inv_complete _ _ _ Iv). unfold is_connected. now rewrite S. Qed.
Lemma setup_crash o c : inv cfg client c -> cok client c -> c_hState c = None ->
  run (handshakeSetup E o c) /\ (snd (handshakeSetup E o c) = Ok tt -> c_hState (fst (handshakeSetup E o c)) <> None) /\ snd (handshakeSetup E o c) <> Panic \/ run (handshakeSetup E o c) /\ snd (handshakeSetup E o c) = Panic.
Proof.
  intros Iv K S. unfold handshakeSetup. set (c1 := set_world c (world_init (c_world c))).
  assert (Cc : c_cfg c1 = cfg_init cfg).
  { pose proof (inv_cfg _ _ _ Iv) as G. unfold started in G. rewrite S in G. unfold c1, world_init, c_cfg in *. cbn.
    destruct G as [->| ->]; [reflexivity|apply cfg_init_idem]. }
  pose proof (not_started c Iv S) as Nc.
  assert (W : w_ctx (c_world c1) = w_ctx (c_world c) /\ w_early (c_world c1) = w_early (c_world c)). { unfold c1, world_init. cbn. destruct (cf_psks _); auto. }
  assert (K1 : cok client c1).
  { destruct W as [W1 W2]. destruct K as (A & B & C & D & F). split; [unfold c_ctx; rewrite W1; exact A|]. split; [rewrite W2; exact B|]. cbn. rewrite S, Nc. split; [congruence|]. split; discriminate. }
  assert (S1 : c_hState c1 = None) by exact S. assert (N1 : c_complete c1 = false) by exact Nc. assert (R1 : c_isClient c1 = client) by exact (inv_role _ _ _ Iv).
  clearbody c1. clear W Nc S K Iv. cbv zeta. pose proof init_fine as If.
  assert (Cal : forall r : res unit, r <> Panic -> r <> Ok tt -> run (c1, r) /\ (snd (c1, r) = Ok tt -> c_hState (fst (c1, r)) <> None) /\ snd (c1, r) <> Panic). { intros r H1 H2. split; [now apply run_calm|]. split; [intros H; now contradiction H2|exact H1]. }
  destruct (c_isClient c1) eqn:Ecl; symmetry in R1.
  - set (st := mkCst _ _ _ _ _ _). pose proof (proj1 K1) as T1. pose proof (tr_client_start P o M (c_world c1) st (still_self _ T1)) as Tr. unfold c_cfg in Cc. rewrite Cc in Tr. specialize (Tr If eq_refl).
    destruct (client_start (v_prims E) o (c_world c1) st) as [w r] eqn:Es. unfold P in Tr. rewrite Es in Tr. destruct Tr as (S2 & F2 & N2 & G2). cbn [fst snd] in *.
    assert (K2 : cok client (set_world c1 w)). { apply cok_world; [exact K1|exact F2|eapply tctx_still; eauto|]. intros s Hs. congruence. }
    assert (C2 : c_cfg (set_world c1 w) = cfg_init cfg) by (rewrite <- Cc; exact (frame_cfg _ _ F2)).
    destruct r as [[[s acts] rt]|e| |]; cbn [sbind fst snd].
    + destruct (G2 _ eq_refl) as [Hs Fa]. assert (R : run (takeActions E (o_ms o) (set_world c1 w) acts)).
      { apply acts_run; [exact K2|exact Fa|rewrite C2; apply If|rewrite C2; apply Sc|]. intros s0 Hs0. cbn in Hs0. congruence. }
      pose proof (cframe_actions E (o_ms o) (set_world c1 w) acts (set_world c1 w) (cframe_refl _)) as Fr. unfold all in Fr.
      pose proof (client_start_ok _ _ _ _ _ _ _ _ Es) as (ws & ch & sending & k & Ews & _).
      destruct (takeActions E (o_ms o) (set_world c1 w) acts) as [c3 q]. destruct R as [R2 R3]. cbn [fst snd] in *. destruct q as [u|e| |]; cbn [sbind fst snd].
      * left. assert (K4 : cok client (set_hState c3 s)).
        { destruct Fr as (B1 & B2 & B3 & B4 & B5 & B6 & B7). destruct R2 as (A & B & C & D & F). split; [exact A|]. split; [exact B|]. split; [|split; [|exact F]].
          - intros _. unfold c_cfg in *. cbn in *. rewrite B6, C2, R1. exact If.
          - intros s0 Hs0. cbn in Hs0. injection Hs0 as <-. split; [exact Hs|]. rewrite Ews. exact I. }
        split; [apply run_calm; [exact K4|discriminate]|]. split; [discriminate|discriminate].
      * left. split; [apply run_calm; [exact R2|discriminate]|]. split; discriminate.
      * right. split; [split; auto|reflexivity].
      * left. split; [apply run_calm; [exact R2|discriminate]|]. split; discriminate.
    + left. split; [apply run_calm; [exact K2|discriminate]|]. split; discriminate.
    + now destruct (N2 eq_refl).
    + left. split; [apply run_calm; [exact K2|discriminate]|]. split; discriminate.
  - left.
    assert (St : forall p, cok client c1 -> (cf_requireCookie cfg = true -> p <> None) ->
      let c2 := set_hState (set_world c1 (set_cfg (c_world c1) (set_protector (cfg_init cfg) p))) SStart in
      run (c2, Ok tt) /\ (snd (c2, Ok tt) = Ok tt -> c_hState (fst (c2, Ok tt)) <> None) /\ snd (c2, Ok tt) <> Panic).
    { intros p (A & B & C & D & F) Hp. cbv zeta. split; [|split; discriminate]. apply run_calm; [|discriminate]. split; [exact A|]. split; [exact B|]. split; [|split].
      - intros _. destruct If as (I1 & I2 & I3 & I4 & _). split; [exact I1|]. split; [exact I2|]. split; [exact I3|]. split; [exact I4|]. intros _. exact Hp.
      - intros s Hs. cbn in Hs. injection Hs as <-. split; exact I.
      - cbn. rewrite N1. discriminate. }
    assert (St1 : (cf_requireCookie cfg = true -> cf_cookieProtector (c_cfg c1) <> None) ->
      run (set_hState c1 SStart, Ok tt) /\ (snd (set_hState c1 SStart, Ok tt) = Ok tt -> c_hState (fst (set_hState c1 SStart, Ok tt)) <> None) /\ snd (set_hState c1 SStart, Ok tt) <> Panic).
    { intros Hp. specialize (St _ K1 Hp). replace (set_world c1 (set_cfg (c_world c1) (set_protector (cfg_init cfg) (cf_cookieProtector (c_cfg c1))))) with c1 in St; [exact St|].
      rewrite <- Cc. destruct c1 as [[[] ? ? ? ?] ? ? ? ? ? ?]. reflexivity. }
    assert (Rc : cf_requireCookie (c_cfg c1) = cf_requireCookie cfg) by (rewrite Cc; reflexivity).
    destruct (cf_cookieProtector (c_cfg c1)) as [pr|] eqn:Ep. { apply St1. discriminate. }
    rewrite Rc. destruct (cf_requireCookie cfg) eqn:Er; [|apply St1; discriminate].
    destruct (cf_nonBlocking (c_cfg c1)); [apply Cal; discriminate|]. destruct (o_protector o) as [p|]; [|apply Cal; discriminate].
    rewrite Cc. apply St; [exact K1|discriminate].
Qed.
Lemma handshake_crash fuel os c : inv cfg client c -> cok client c -> run (handshake E fuel os c).
Proof.
  intros Iv K. unfold handshake. destruct (c_complete c); [apply run_calm; [exact K|discriminate]|]. destruct (c_hState c) as [s|] eqn:S; [now apply loop_crash|].
  destruct os as [|o os]; [apply run_calm; [exact K|discriminate]|]. pose proof (inv_setup E o cfg client c Iv S) as Is. unfold all in Is.
  assert (R : run (handshakeSetup E o c)) by (destruct (setup_crash o c Iv K S) as [[R _]|[R _]]; exact R). apply run_bind; [exact R|]. intros c1 u Es K1.
  assert (Nh : c_hState c1 <> None). { destruct (setup_crash o c Iv K S) as [(_ & H & _)|[_ H]]; rewrite Es in H; [apply H; destruct u; reflexivity|discriminate]. }
  rewrite Es in Is. cbn [fst] in Is. destruct (_ && _); [apply run_calm; [exact K1|discriminate]|]. destruct (c_hState c1) as [s|] eqn:S1; [now apply loop_crash|now contradiction Nh].
Qed.

(** *** Reading and writing *)

Lemma complete_facts c : inv cfg client c -> cok client c -> c_complete c = true ->
  known (sc_suite (c_state c)) /\ cf_psks (c_cfg c) <> None /\ (forall s, c_hState c = Some s -> not_eoed s) /\ cf_useDTLS (c_cfg c) = false.
Proof.
  intros Iv (A & B & C & D & F) Cc. split; [auto|]. rewrite (inv_complete _ _ _ Iv) in Cc. unfold is_connected in Cc. destruct (c_hState c) as [[ | | | | | | | | | | | | | | | k]|]; try discriminate.
  split; [apply C; discriminate|]. split; [intros s [= <-]; exact I|now apply inv_dtls].
Qed.
Lemma cok_state c k : sc_suite k = sc_suite (c_state c) -> cok client c -> cok client (set_state c k).
Proof. intros H (A & B & C & D & F). split; [exact A|]. split; [exact B|]. split; [exact C|]. split; [exact D|]. cbn. rewrite H. exact F. Qed.
Lemma cok_calm_world c w : (forall s, c_hState c = Some s -> not_eoed s) -> cok client c -> frame (c_world c) w -> tctx (w_ctx w) -> cok client (set_world c w).
Proof. intros N K F T. apply cok_world; auto. intros s Es. specialize (N s Es). destruct s; try exact I. contradiction. Qed.

Lemma post_crash fuel o : forall c f, c_complete c = true -> inv cfg client c -> cok client c -> run (post_messages E fuel o c f).
Proof.
  induction fuel as [|fuel IH]; intros c f Cc Iv K; destruct f as [|ty rest]; try (apply run_calm; [exact K|discriminate]). cbn [post_messages].
  destruct (_ <? _)%nat; [apply run_calm; [exact K|discriminate]|]. destruct (_ <? _)%nat; [apply run_calm; [exact K|discriminate]|]. set (hm := mkHm _ _ _ _ _ _ _). set (more := skipn _ (skipn _ _)).
  destruct (complete_facts c Iv K Cc) as (Kn & Ps & Ne & D).
  pose proof (frame_process (c_world c) (v_prims E) (v_pki E) o (c_world c) (c_state c) hm (frame_refl _)) as F.
  pose proof (wx_process (c_world c) (v_prims E) (v_pki E) o (c_world c) (c_state c) hm (wx_refl _)) as X. pose proof (process_crash o (c_world c) (c_state c) hm (proj1 K) Kn) as Pc. cbv zeta in Pc. unfold P in Pc.
  destruct (processMessage (v_prims E) (v_pki E) o (c_world c) (c_state c) hm) as [w r] eqn:N. unfold all in F, X; cbn [fst snd] in *. destruct Pc as (Tw & Nw & Gw).
  pose proof (inv_frame _ _ _ _ Iv F X) as I1. pose proof (cok_calm_world c w Ne K F Tw) as K1. assert (C1 : c_cfg (set_world c w) = c_cfg c) by exact (frame_cfg _ _ F).
  destruct r as [[s acts]|[a| |m]| |]; [|apply run_fails; [discriminate|exact K1]|apply run_calm; [exact K1|discriminate]|apply run_calm; [exact K1|discriminate]|now contradiction Nw|apply run_calm; [exact K1|discriminate]].
  apply process_ok in N. destruct N as [Q Ks]. destruct (Gw _ _ eq_refl) as [Sk Fa].
  assert (R : run (takeActions E (o_ms o) (set_world c w) acts)) by (apply acts_run; [exact K1|exact Fa|rewrite C1; exact Ps|rewrite C1; exact D|exact Ne]).
  pose proof (qframe_actions E (o_ms o) (set_world c w) acts (set_world c w) Q (qframe_refl _)) as Qf.
  destruct (takeActions E (o_ms o) (set_world c w) acts) as [c2 r2]. unfold all in Qf; cbn [fst] in Qf. pose proof (inv_qframe _ _ _ _ I1 Qf) as I2. destruct R as [R1 R2]. cbn [fst snd] in *.
  destruct r2 as [u|[a| |m]| |]; [|apply run_fails; [discriminate|exact R1]|apply run_calm; [exact R1|discriminate]|apply run_calm; [exact R1|discriminate]|split; auto|apply run_calm; [exact R1|discriminate]].
  destruct Qf as [(_ & Qs & _ & Qc & _) _]. apply IH; [cbn; rewrite Qc; exact Cc| |].
  - apply inv_set_state; [exact I2|]. rewrite Ks. now apply (inv_connected _ _ _ Iv).
  - apply cok_state; [|exact R1]. rewrite Qs. exact Sk.
Qed.
Lemma consume_crash o c : c_complete c = true -> inv cfg client c -> cok client c -> run (consumeRecord E o c).
Proof.
  intros Cc Iv K. unfold consumeRecord. destruct (readRecord (c_in c)) as [l r] eqn:Er. destruct (complete_facts c Iv K Cc) as (Kn & Ps & Ne & D).
  destruct (readRecordE_crash _ _ _ _ (proj1 (proj1 K)) Er) as (F & Q1 & Q2).
  assert (I1 : inv cfg client (upd_in c l)) by (eapply inv_qframe; [exact Iv|apply qframe_in, qframe_refl]).
  assert (K1 : cok client (upd_in c l)).
  { eapply cok_frame; [exact K|apply cframe_in, cframe_refl|apply upd_in_tctx; [exact (proj1 K)|exact F]|]. intros s Es. specialize (Ne s Es). destruct s; try exact I. contradiction. }
  destruct r as [pt|e| |]; cbn [sbind].
  - destruct (Byte.eqb _ _); [now apply post_crash|]. destruct (Byte.eqb _ _).
    + assert (G : forall a, run (fail_eof (A := unit) (upd_in c l) a)) by (intros a; apply run_fails; [discriminate|exact K1]).
      destruct (p_fragment pt) as [|x [|y [|z f]]]; try apply G. destruct (_ =? _); [apply run_calm; [exact K1|discriminate]|]. destruct (_ =? _); [apply run_calm; [exact K1|discriminate]|].
      destruct (_ =? _); [apply run_calm; [exact K1|discriminate]|apply G].
    + destruct (Byte.eqb _ _).
      * pose proof K1 as ((_ & _ & Td & _) & _). rewrite Td. apply run_calm; [exact K1|discriminate].
      * destruct (Byte.eqb _ _); apply run_calm; try exact K1; discriminate.
  - apply run_calm; [exact K1|discriminate].
  - split; [exact K1|]. intros _. destruct (Q2 eq_refl); [apply crash_zeros|apply crash_worn_in]; assumption.
  - congruence.
Qed.
Lemma read_loop_crash os : forall c n, c_complete c = true -> inv cfg client c -> cok client c -> run (read_loop E os c n).
Proof.
  induction os as [|o os IH]; intros c n Cc Iv K; cbn [read_loop]; destruct (c_readBuffer c); try (apply run_calm; [exact K|discriminate]).
  pose proof (inv_consume E o cfg client c Cc Iv) as I1. pose proof (complete_consume E o c) as C1. pose proof (consume_crash o c Cc Iv K) as [K1 K2].
  destruct (consumeRecord E o c) as [c1 r]. unfold all in I1, C1. cbn [fst snd] in *. rewrite Cc in C1. destruct r as [u|e| |].
  - now apply IH.
  - destruct (_ || _); [apply run_calm; [exact K1|discriminate]|now apply IH].
  - split; auto.
  - apply run_calm; [exact K1|discriminate].
Qed.
Lemma read_crash fuel os c n : inv cfg client c -> cok client c -> run (read E fuel os c n).
Proof.
  intros Iv K. unfold read. destruct (is_connected c) eqn:Ic; cbn [negb].
  - pose proof (complete_connected _ _ _ Iv Ic) as Cc. rewrite handshake_complete by exact Cc. cbn [sbind]. destruct (n =? 0)%nat; [apply run_calm; [exact K|discriminate]|].
    rewrite (inv_dtls c Iv). cbn [sbind]. now apply read_loop_crash.
  - rewrite (inv_role _ _ _ Iv). destruct (Bool.bool_dec client true) as [Ecl|Ecl].
    + rewrite Ecl at 1. apply run_calm; [exact K|discriminate].
    + apply Bool.not_true_is_false in Ecl. rewrite Ecl at 1. destruct (negb _); [apply run_calm; [exact K|discriminate]|].
      destruct (w_early (c_world c)) eqn:Ew; apply run_calm; try discriminate; [exact K|now apply cok_world_early].
Qed.
Lemma write_loop_crash fuel : forall c b sent, cok client c -> let p := write_loop fuel c b sent in cok client (fst p) /\ (snd (snd p) = Panic -> crash P (fst p)).
Proof.
  induction fuel as [|fuel IH]; intros c b sent K; destruct b as [|x b]; cbn [write_loop]; try (split; [exact K|discriminate]).
  set (n := Nat.min _ _). destruct (writeRecord (c_out c) _) as [l r] eqn:Ew. destruct (write_crash _ _ _ _ (proj1 (proj2 (proj1 K))) Ew) as (F & Q1 & Q2).
  assert (K1 : cok client (upd_out c l)) by (eapply cok_same; [exact K|apply cframe_out, cframe_refl|apply upd_out_tctx; [exact (proj1 K)|exact F]|reflexivity]).
  destruct r as [u|e| |]; [now apply IH| | |]; (split; [exact K1|]); cbn [fst snd]; try discriminate. intros _. apply crash_worn_out. now apply Q2.
Qed.
Lemma writes_crash c b : cok client c -> let p := write c b in cok client (fst p) /\ (snd (snd p) = Panic -> crash P (fst p)).
Proof. intros K. unfold write. destruct (negb _); [split; [exact K|discriminate]|]. now apply write_loop_crash. Qed.
Lemma key_update_crash o c b : inv cfg client c -> cok client c -> run (sendKeyUpdate E o c b).
Proof.
  intros Iv K. unfold sendKeyUpdate. destruct (c_complete c) eqn:Cc; cbn [negb]; [|apply run_calm; [exact K|discriminate]]. set (rq := if b then _ else _).
  destruct (complete_facts c Iv K Cc) as (Kn & Ps & Ne & D). pose proof (frame_key_update (c_world c) (v_prims E) (c_world c) (c_state c) rq (frame_refl _)) as F.
  pose proof (update_crash (c_world c) (c_state c) rq (proj1 K) Kn) as U. cbv zeta in U. unfold P in U. destruct (keyUpdate (v_prims E) (c_world c) (c_state c) rq) as [[w s] r]. cbn [fst snd] in *.
  destruct U as (Tw & Sk & Nw & Gw). assert (K1 : cok client (set_state (set_world c w) s)) by (apply cok_state; [exact Sk|now apply cok_calm_world]).
  assert (C1 : c_cfg (set_state (set_world c w) s) = c_cfg c) by exact (frame_cfg _ _ F).
  destruct r as [acts|[a| |m]| |]; [|apply run_fails; [discriminate|exact K1]|apply run_calm; [exact K1|discriminate]|apply run_calm; [exact K1|discriminate]|now contradiction Nw|apply run_calm; [exact K1|discriminate]].
  assert (R : run (takeActions E (o_ms o) (set_state (set_world c w) s) acts)) by (apply acts_run; [exact K1|now apply Gw|rewrite C1; exact Ps|rewrite C1; exact D|exact Ne]).
  destruct (takeActions _ _ _ _) as [c2 [u|[a| |m]| |]]; try exact R. apply run_fails; [discriminate|exact (proj1 R)].
Qed.

Lemma cok_api c c' : api E c c' -> inv cfg client c -> cok client c -> cok client c'.
Proof.
  intros A Iv K. destruct A.
  - now apply handshake_crash.
  - now apply read_crash.
  - now apply writes_crash.
  - now apply key_update_crash.
  - exact K.
  - eapply cok_same; [exact K|apply cframe_in, cframe_refl| |reflexivity]. apply upd_in_tctx; [exact (proj1 K)|]. exact (proj1 (proj1 K)).
  - eapply cok_same; [exact K|apply cframe_out, cframe_refl| |reflexivity]. apply upd_out_tctx; [exact (proj1 K)|]. exact (proj1 (proj2 (proj1 K))).
Qed.
Lemma cok_new psks input : cok client (newConn cfg psks client input).
Proof.
  destruct Sc as (D & _). unfold newConn. rewrite D. split; [|split; [reflexivity|split; [now intros []|split; discriminate]]].
  assert (Fi : forall d i, rl_fine d (newRecordLayer false d i)). { intros d i. split; [|apply fr_ok_new; cbn; lia]. split; [reflexivity|]. split; [reflexivity|]. constructor; [|constructor]. intros H. now contradiction H. }
  split; [apply Fi|]. split; [apply Fi|]. split; [reflexivity|]. split; [reflexivity|]. split; [reflexivity|]. split; [apply fr_ok_new; cbn; lia|]. split; reflexivity.
Qed.
Lemma cok_used psks input c : used E (newConn cfg psks client input) c -> inv cfg client c /\ cok client c.
Proof.
  intros U. split; [eapply inv_used; exact U|]. induction U as [|c c' U IH A]; [apply cok_new|]. eapply cok_api; eauto using inv_used.
Qed.

Lemma only_causes psks input c : used E (newConn cfg psks client input) c ->
  (forall fuel os, snd (handshake E fuel os c) = Panic -> crash P (fst (handshake E fuel os c))) /\
  (forall fuel os n, snd (read E fuel os c n) = Panic -> crash P (fst (read E fuel os c n))) /\
  (forall b, snd (snd (write c b)) = Panic -> crash P (fst (write c b))) /\
  (forall o b, snd (sendKeyUpdate E o c b) = Panic -> crash P (fst (sendKeyUpdate E o c b))).
Proof.
  intros U. destruct (cok_used psks input c U) as [Iv K]. repeat split; intros; [now apply handshake_crash|now apply read_crash|now apply writes_crash|now apply key_update_crash].
Qed.
End calls.
