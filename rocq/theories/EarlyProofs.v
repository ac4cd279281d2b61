(** Proofs about early data and the read buffer. *)
From Verif Require Import Base Frame Record Timer Handshake Crypto Messages Pki Negotiation Machine MachineProofs StepProofs Cookie Client Server Conn ConnSpec ConnProofs.

Lemma from_nil : from_records [].
Proof. exists []. split; [reflexivity|constructor]. Qed.
Lemma from_app a b : from_records a -> from_records b -> from_records (a ++ b).
Proof. intros (p & -> & P) (q & -> & Q). exists (p ++ q). split; [now rewrite concat_app|now apply Forall_app]. Qed.
Lemma from_one l l' pt : readRecord l = (l', Ok pt) -> p_type pt = x17 -> from_records (p_fragment pt).
Proof. intros H T. exists [p_fragment pt]. split; [cbn; now rewrite app_nil_r|]. constructor; [|constructor]. eauto 10. Qed.

(** ** The server reading early data *)

Lemma peek_early fuel : forall w w' r, peek fuel w = (w', r) -> w_early w' = w_early w /\ w_cfg w' = w_cfg w.
Proof.
  induction fuel as [|f IH]; cbn [peek]; [now intros w w' r [= <- _]|]. intros w w' r. destruct (peekRecordType _) as [c [t|e| |]]; try (intros [= <- _]; split; reflexivity).
  destruct (_ && _); [|intros [= <- _]; split; reflexivity]. intros H. apply IH in H. exact H.
Qed.
(** Peeking gives the type of the record that is read next. *)
Lemma peeked l l1 ty : peekRecordType l = (l1, Ok ty) -> forall l2 pt, readRecord l1 = (l2, Ok pt) -> p_type pt = ty.
Proof.
  unfold peekRecordType. destruct (nextRecord l false) as [m [p|e| |]] eqn:H; try discriminate. cbn [bind]. intros [= <- <-] l2 pt.
  assert (l_cached m = Some p) as C.
  { unfold nextRecord in H. destruct (l_cached l) eqn:Lc; [now injection H as <- <-|]. destruct (nextFrame _ _ _) as [[cn f] [[h b]|e| |]]; try discriminate.
    cbv zeta in H. destruct (handleFrame _ _ _ _) as [core [q|e| |]]; try discriminate. now injection H as <- <-. }
  unfold readRecord, readRecordE, nextRecord. rewrite C. now intros [= <- <-].
Qed.
Lemma peek_type fuel : forall w w' ty, peek fuel w = (w', Ok ty) -> forall l2 pt, readRecord (in_conn w') = (l2, Ok pt) -> p_type pt = ty.
Proof.
  induction fuel as [|f IH]; cbn [peek]; [discriminate|]. intros w w' ty. destruct (peekRecordType _) as [c [t|e| |]] eqn:P; try discriminate.
  - intros [= <- <-]. intros l2 pt H. eapply peeked; [exact P|exact H].
  - destruct (_ && _); [|discriminate]. apply IH.
Qed.
Lemma read_early_grows fuel : forall w w' r, read_early fuel w = (w', r) -> exists new, w_early w' = w_early w ++ new /\ from_records new.
Proof.
  induction fuel as [|f IH]; [intros w w' r [= <- _]; exists []; split; [now rewrite app_nil_r|apply from_nil]|].
  intros w w' r. cbn [read_early]. destruct (negb _); [intros [= <- _]; exists []; split; [now rewrite app_nil_r|apply from_nil]|].
  destruct (peek (S f) w) as [w1 [t|e| |]] eqn:P; pose proof (peek_early _ _ _ _ P) as [Pe _];
    try (intros [= <- _]; exists []; split; [now rewrite app_nil_r|apply from_nil]).
  destruct (Byte.eqb t rtApplicationData) eqn:T; cbn [negb]; [apply byte_eq in T; subst t|intros [= <- _]; exists []; split; [now rewrite app_nil_r|apply from_nil]].
  destruct (readRecord (in_conn w1)) as [c [pt|e| |]] eqn:R; cbv zeta; try (intros [= <- _]; exists []; split; [cbn; now rewrite app_nil_r|apply from_nil]).
  intros H. apply IH in H. destruct H as (new & E & Fn). exists (p_fragment pt ++ new). split.
  - rewrite E. cbn. rewrite Pe. now rewrite app_assoc.
  - apply from_app; [|exact Fn]. eapply from_one; [exact R|]. exact (peek_type _ _ _ _ P _ _ R).
Qed.
Lemma step_early P X o fuel w s w' r : next P X o fuel w s = (w', r) -> exists new, w_early w' = w_early w ++ new /\ from_records new.
Proof.
  intros H. pose proof (frame_next P X o fuel w s) as F. rewrite H in F. unfold all in F; cbn [fst] in F.
  assert (w_early w' = w_early w -> exists new, w_early w' = w_early w ++ new /\ from_records new) as K.
  { intros ->. exists []. split; [now rewrite app_nil_r|apply from_nil]. }
  destruct s; try (apply K; exact (proj2 (proj2 F))).
  cbn [next] in H. destruct (read_early fuel w) as [w1 r1] eqn:R. pose proof (read_early_grows _ _ _ _ R) as (new & En & Fn). exists new. split; [|exact Fn]. rewrite <- En.
  destruct r1 as [u|e| |]; cbn [sbind] in H; try (injection H as <- _; reflexivity).
  pose proof (frame_hr w1 fuel o w1 (frame_refl w1)) as G. destruct (hr_read fuel o w1) as [w2 [hm|e| |]]; unfold all in G; cbn [fst sbind] in *;
    try (injection H as <- _; exact (proj2 (proj2 G))).
  pose proof (frame_server_wait_eoed w2 P w2 k hm (frame_refl w2)) as G2. rewrite H in G2. destruct G as (_ & _ & G), G2 as (_ & _ & G2). cbn [fst] in G2. congruence.
Qed.

(** ** Connections *)

Definition bframe (c0 c : conn) : Prop := c_complete c = c_complete c0 /\ c_readBuffer c = c_readBuffer c0 /\ w_early (c_world c) = w_early (c_world c0).
Lemma cframe_bframe c0 c : cframe c0 c -> bframe c0 c.
Proof. intros (_ & _ & _ & A & B & _ & C). split; auto. Qed.
Lemma bframe_refl c : bframe c c.
Proof. split; auto. Qed.
Lemma bframe_trans a b c : bframe a b -> bframe b c -> bframe a c.
Proof. intros (A & B & C) (D & F & G). split; [congruence|split; congruence]. Qed.

Definition grows (c c' : conn) : Prop := exists new, pending c' = pending c ++ new /\ from_records new.
Lemma grows_refl c : grows c c.
Proof. exists []. split; [now rewrite app_nil_r|apply from_nil]. Qed.
Lemma grows_bframe c c' : bframe c c' -> grows c c'.
Proof. intros (_ & A & B). exists []. unfold pending. rewrite A, B, app_nil_r. split; [reflexivity|apply from_nil]. Qed.
Lemma grows_trans a b c : grows a b -> grows b c -> grows a c.
Proof. intros (n & A & F) (m & B & G). exists (n ++ m). rewrite B, A, app_assoc. split; [reflexivity|now apply from_app]. Qed.

(** While a handshake is under way nothing is in the read buffer. *)
Definition bare (c : conn) : Prop := c_complete c = false -> c_readBuffer c = [].
Lemma turn_grows E fuel o c s c' r : handshake_turn E fuel o c s = (c', r) -> c_complete c = false -> bare c -> settled c' -> grows c c' /\ bare c'.
Proof.
  intros H Cc B St. specialize (B Cc). apply turn_cases in H. destruct H as (w & rn & N & D). apply step_early in N. destruct N as (new & Ew & Fn).
  assert (forall c1, cframe (set_world c w) c1 -> grows c c1 /\ bare c1 /\ c_readBuffer c1 = [] /\ c_complete c1 = false) as K.
  { intros c1 F. apply cframe_bframe in F. destruct F as (F1 & F2 & F3). cbn in F1, F2, F3. split; [|split; [|split]].
    - exists new. unfold pending. rewrite F2, F3, Ew, B, !app_nil_r. split; [reflexivity|exact Fn].
    - intros _. congruence.
    - congruence.
    - congruence. }
  destruct D as [(_ & F)|(s' & acts & retry & c1 & -> & T & D)]; [split; now apply K|].
  assert (cframe (set_world c w) c1) as F1. { pose proof (cframe_actions E (o_ms o) (set_world c w) acts (set_world c w) (cframe_refl _)) as Q. now rewrite T in Q. }
  destruct (K _ F1) as (G1 & B1 & R1 & _).
  destruct D as [(_ & -> & _)|(k & r1 & -> & D & _)]; [split; [exact G1|exact B1]|].
  set (c2 := set_hState c1 (Connected k)) in *. assert (grows c c2) as G2 by exact G1. assert (c_readBuffer c2 = []) as R2 by exact R1.
  apply on_connected_cases in D. cbv zeta in D. destruct D as [(_ & -> & _)|(_ & c3 & F3 & D)].
  - split; [exact G2|]. discriminate.
  - assert (grows c c3) as G3. { eapply grows_trans; [exact G2|]. apply cframe_bframe in F3. destruct F3 as (_ & F3 & F4). cbn in F3, F4. exists []. unfold pending. rewrite F3, F4, app_nil_r. split; [reflexivity|apply from_nil]. }
    apply cframe_bframe in F3. destruct F3 as (F5 & F6 & F7). cbn in F5, F6, F7.
    destruct D as [(_ & ->)|(_ & -> & _)].
    + destruct (w_early (c_world c3)) eqn:W; [split; [exact G3|intros X; congruence]|]. split; [|intros X; cbn in X; congruence].
      destruct G3 as (n3 & P3 & Fn3). exists n3. split; [|exact Fn3]. rewrite <- P3. unfold pending. cbn. rewrite W.
      assert (c_readBuffer c3 = []) as -> by (rewrite F6; exact R2). now rewrite app_nil_r.
    + split; [exact G3|]. intros X. congruence.
Qed.

Lemma loop_grows E fuel cfg client os : forall c s c' r, handshake_loop E fuel os c s = (c', r) -> inv cfg client c -> c_hState c = Some s -> bare c -> settled c' ->
  c_complete c = false -> grows c c' /\ bare c'.
Proof.
  induction os as [|o os IH]; intros c s c' r H Iv S B St Cc.
  - assert (c' = c) as -> by (destruct s; cbn in H; congruence). split; [apply grows_refl|exact B].
  - assert (not_connected s) as Nc. { rewrite (inv_complete _ _ _ Iv) in Cc. unfold is_connected in Cc. rewrite S in Cc. destruct s; try exact I. discriminate. }
    assert (handshake_loop E fuel (o :: os) c s = (call c, '(s, retry) <- handshake_turn E fuel o c s;
      if cf_nonBlocking (c_cfg c) then (c, if retry : bool then alert AlertStatelessRetry else Ok tt) else handshake_loop E fuel os c s)) as Eq.
    { destruct s; try reflexivity. contradiction. }
    rewrite Eq in H. clear Eq. pose proof (inv_turn E fuel o cfg client c s Iv S Nc) as I1.
    destruct (handshake_turn E fuel o c s) as [c1 r1] eqn:T. unfold all in I1; cbn [fst] in I1.
    destruct r1 as [[s1 retry]|e| |]; cbn [sbind] in H; try (injection H as <- <-; eapply turn_grows; eauto).
    pose proof (turn_hstate _ _ _ _ _ _ _ _ T) as S1. destruct (cf_nonBlocking _); [injection H as <- <-; eapply turn_grows; eauto|].
    destruct (c_complete c1) eqn:C1.
    + assert (c' = c1) as ->.
      { rewrite (inv_complete _ _ _ I1) in C1. unfold is_connected in C1. rewrite S1 in C1. destruct s1; try discriminate. destruct os; cbn in H; congruence. }
      eapply turn_grows; eauto.
    + assert (settled c1) as St1 by (intros X; congruence). destruct (turn_grows _ _ _ _ _ _ _ T Cc B St1) as [G1 B1].
      destruct (IH _ _ _ _ H I1 S1 B1 St C1) as [G2 B2]. split; [eapply grows_trans; eauto|exact B2].
Qed.
Lemma setup_bframe E o c c' r : handshakeSetup E o c = (c', r) -> bframe c c'.
Proof.
  unfold handshakeSetup. set (c1 := set_world c _). assert (bframe c c1) as B by (split; [reflexivity|split; [reflexivity|]]; unfold c1, world_init; cbn; destruct (cf_psks _); reflexivity).
  cbv zeta. destruct (c_isClient c1).
  - match goal with |- context [client_start ?P ?o ?w ?st] => pose proof (frame_client_start w P o w st (frame_refl w)) as F; destruct (client_start P o w st) as [w1 [[[s acts] rt]|e| |]] end;
      unfold all in F; cbn [fst] in F; apply frame_cframe in F; cbn [sbind]; try (intros [= <- _]; eapply bframe_trans; [exact B|apply cframe_bframe, F]).
    pose proof (cframe_actions E (o_ms o) c1 acts _ F) as Q. destruct (takeActions _ _ _ _) as [c2 r2].
    assert (bframe c c2) as B2 by (eapply bframe_trans; [exact B|apply cframe_bframe, Q]).
    destruct r2; cbn [sbind]; intros [= <- _]; exact B2.
  - destruct (cf_cookieProtector _); [intros [= <- _]; exact B|]. destruct (cf_requireCookie _); [|intros [= <- _]; exact B].
    destruct (cf_nonBlocking _); [intros [= <- _]; exact B|]. destruct (o_protector o); intros [= <- _]; exact B.
Qed.
Lemma handshake_grows E fuel cfg client os c c' r : handshake E fuel os c = (c', r) -> inv cfg client c -> bare c -> settled c' -> grows c c' /\ bare c'.
Proof.
  unfold handshake. destruct (c_complete c) eqn:Cc. { intros [= <- _] _ B _. split; [apply grows_refl|exact B]. }
  destruct (c_hState c) as [s|] eqn:S. { intros H Iv B St. eapply loop_grows; eauto. }
  destruct os as [|o os]; [intros [= <- _] _ B _; split; [apply grows_refl|exact B]|].
  intros H Iv B St. pose proof (inv_setup E o cfg client c Iv S) as I1. destruct (handshakeSetup E o c) as [c1 r1] eqn:T. unfold all in I1; cbn [fst] in I1.
  pose proof (setup_bframe _ _ _ _ _ T) as F. pose proof F as (F1 & F2 & F3). assert (bare c1) as B1 by (intros _; rewrite F2; apply B; exact Cc). apply grows_bframe in F.
  destruct r1 as [u|e| |]; cbn [sbind] in H; try (injection H as <- _; split; assumption).
  destruct (_ && _); [injection H as <- _; split; assumption|]. destruct (c_hState c1) as [s|] eqn:S1; [|injection H as <- _; split; assumption].
  destruct (loop_grows _ _ _ _ _ _ _ _ _ H I1 S1 B1 St) as [G2 B2]; [congruence|]. split; [eapply grows_trans; eauto|exact B2].
Qed.

(** ** Reading on an established connection *)

Lemma fail_eof_bframe {A} c a c' (r : res A) : fail_eof c a = (c', r) -> bframe c c'.
Proof. intros H. apply cframe_bframe. exact (all_cframe_run _ _ _ _ (cframe_fail_eof c c a (cframe_refl c)) H). Qed.
Lemma post_bframe E fuel o : forall c f c' r, post_messages E fuel o c f = (c', r) -> bframe c c'.
Proof.
  induction fuel as [|n IH]; intros c f c' r; destruct f as [|ty rest]; cbn [post_messages]; try (intros [= <- _]; apply bframe_refl).
  destruct (_ <? _)%nat; [intros [= <- _]; apply bframe_refl|]. cbv zeta. destruct (_ <? _)%nat; [intros [= <- _]; apply bframe_refl|].
  set (hm := mkHm _ _ _ _ _ _ _). pose proof (frame_process (c_world c) (v_prims E) (v_pki E) o (c_world c) (c_state c) hm (frame_refl _)) as F.
  destruct (processMessage _ _ _ _ _ _) as [w [[s acts]|e| |]]; unfold all in F; cbn [fst] in F; apply frame_cframe in F; try (intros [= <- _]; apply cframe_bframe, F).
  - pose proof (cframe_actions E (o_ms o) c acts _ F) as Q. destruct (takeActions _ _ _ _) as [c2 r2]. unfold all in Q; cbn [fst] in Q. apply cframe_bframe in Q.
    destruct r2 as [u|e| |]; try (intros [= <- _]; exact Q).
    + intros H. apply IH in H. eapply bframe_trans; [exact Q|exact H].
    + destruct e; try (intros [= <- _]; exact Q). intros H. apply fail_eof_bframe in H. eapply bframe_trans; eauto.
  - apply cframe_bframe in F. destruct e; try (intros [= <- _]; exact F). intros H. apply fail_eof_bframe in H. eapply bframe_trans; eauto.
Qed.
Lemma consume_cases E o c c' r : consumeRecord E o c = (c', r) ->
  bframe c c' \/ exists new, c_complete c' = c_complete c /\ w_early (c_world c') = w_early (c_world c) /\ c_readBuffer c' = c_readBuffer c ++ new /\ from_records new.
Proof.
  unfold consumeRecord. destruct (readRecord (c_in c)) as [l [pt|e| |]] eqn:R; cbn [sbind]; try (intros [= <- _]; left; apply cframe_bframe, cframe_in, cframe_refl).
  assert (bframe c (upd_in c l)) as B by apply cframe_bframe, cframe_in, cframe_refl.
  destruct (Byte.eqb _ _); [intros H; apply post_bframe in H; left; exact (bframe_trans _ _ _ B H)|].
  destruct (Byte.eqb _ _).
  { intros H. left. destruct (p_fragment pt) as [|x [|y [|z t]]]; try (apply fail_eof_bframe in H; exact (bframe_trans _ _ _ B H)).
    revert H. destruct (_ =? _); [intros [= <- _]; exact B|]. destruct (_ =? _); [intros [= <- _]; exact B|]. destruct (_ =? _); [intros [= <- _]; exact B|].
    intros H. apply fail_eof_bframe in H. exact (bframe_trans _ _ _ B H). }
  destruct (Byte.eqb _ _).
  { intros H. left. revert H. destruct (negb _); [intros [= <- _]; exact B|]. destruct (processAck _ _ _) as [x rx]. intros [= <- _]. apply (bframe_trans _ _ _ B), cframe_bframe, cframe_ctx, cframe_refl. }
  destruct (Byte.eqb _ _) eqn:T; [|intros [= <- _]; left; exact B].
  intros [= <- _]. right. apply byte_eq in T. exists (p_fragment pt). cbn. repeat split. eapply from_one; eauto.
Qed.
Lemma consume_grows E o c c' r : consumeRecord E o c = (c', r) -> settled c -> c_complete c = true -> grows c c' /\ c_complete c' = true /\ settled c'.
Proof.
  intros H St Cc. apply consume_cases in H. destruct H as [B|(new & A & W & R & Fn)].
  - split; [now apply grows_bframe|]. destruct B as (B1 & B2 & B3). split; [congruence|]. intros _. rewrite B3. now apply St.
  - split; [|split; [congruence|]].
    + exists new. unfold pending. rewrite W, R, app_assoc. split; [reflexivity|exact Fn].
    + intros _. rewrite W. now apply St.
Qed.
Definition returned {A} (r : res (list A)) : list A := match r with Ok d => d | _ => [] end.
Definition delivers (c : conn) (d : bytes) (c' : conn) : Prop := exists new, pending c ++ new = d ++ pending c' /\ from_records new.
Lemma grows_delivers c c' : grows c c' -> delivers c [] c'.
Proof. intros (new & A & B). exists new. split; [now rewrite A|exact B]. Qed.
Lemma read_loop_delivers E os : forall c n c' r, read_loop E os c n = (c', r) -> settled c -> c_complete c = true ->
  delivers c (returned r) c' /\ c_complete c' = true /\ settled c'.
Proof.
  induction os as [|o os IH]; intros c n c' r H St Cc.
  - cbn [read_loop] in H. destruct (c_readBuffer c) as [|y b] eqn:Rb.
    + injection H as <- <-. split; [apply grows_delivers, grows_refl|auto].
    + injection H as <- <-. cbn [returned]. split; [|split; [exact Cc|exact St]]. exists []. split; [|apply from_nil].
      unfold pending. cbn [c_world set_readBuffer c_readBuffer]. rewrite (St Cc), Rb, app_nil_r. cbn [app]. now rewrite firstn_skipn.
  - cbn [read_loop] in H. destruct (c_readBuffer c) as [|y b] eqn:Rb.
    + destruct (consumeRecord E o c) as [c1 r1] eqn:T. destruct (consume_grows _ _ _ _ _ T St Cc) as (G & C1 & S1).
      assert (forall cx rx, read_loop E os c1 n = (cx, rx) -> delivers c (returned rx) cx /\ c_complete cx = true /\ settled cx) as K.
      { intros cx rx L. destruct (IH _ _ _ _ L S1 C1) as ((m & Pm & Fm) & Cx & Sx). split; [|auto]. destruct G as (new & Pn & Fn). exists (new ++ m). split; [|now apply from_app].
        rewrite app_assoc, <- Pn. exact Pm. }
      destruct r1 as [u|e| |].
      * now apply K.
      * destruct (_ || _); [|now apply K]. injection H as <- <-. split; [now apply grows_delivers|auto].
      * injection H as <- <-. split; [now apply grows_delivers|auto].
      * injection H as <- <-. split; [now apply grows_delivers|auto].
    + injection H as <- <-. cbn [returned]. split; [|split; [exact Cc|exact St]]. exists []. split; [|apply from_nil].
      unfold pending. cbn [c_world set_readBuffer c_readBuffer]. rewrite (St Cc), Rb, app_nil_r. cbn [app]. now rewrite firstn_skipn.
Qed.
Lemma read_delivers E cfg client fuel os c n c' r : read E fuel os c n = (c', r) -> inv cfg client c -> settled c -> bare c -> delivers c (returned r) c' /\ bare c'.
Proof.
  intros H Iv St B. unfold read in H. destruct (is_connected c) eqn:Ic; cbn [negb] in H.
  - pose proof (complete_connected _ _ _ Iv Ic) as Cc. rewrite handshake_complete in H by exact Cc. cbn [sbind] in H.
    assert (delivers c [] c /\ bare c) as K0 by (split; [apply grows_delivers, grows_refl|exact B]).
    destruct (_ =? _)%nat; [injection H as <- <-; exact K0|].
    assert (forall c1, cframe c c1 -> delivers c [] c1 /\ bare c1) as K1.
    { intros c1 F. apply cframe_bframe in F. split; [now apply grows_delivers, grows_bframe|]. destruct F as (F1 & F2 & _). intros X. congruence. }
    assert (forall c1, cframe c c1 -> read_loop E os c1 n = (c', r) -> delivers c (returned r) c' /\ bare c') as K2.
    { intros c1 F L. apply cframe_bframe in F. pose proof F as (F1 & F2 & F3). assert (settled c1) as S1 by (intros _; rewrite F3; now apply St).
      destruct (read_loop_delivers _ _ _ _ _ _ L S1) as (D & Cx & _); [congruence|]. split; [|intros X; congruence].
      destruct D as (m & Pm & Fm). exists m. split; [|exact Fm]. rewrite <- Pm. unfold pending. now rewrite F2, F3. }
    destruct (cf_useDTLS _); cbn [sbind] in H; [|now apply (K2 c (cframe_refl c))].
    destruct os as [|o os]; cbn [sbind] in H; [injection H as <- <-; exact K0|]. destruct (checkTimers _ _ _) as [x [u|e| |]]; cbn [or_alert sbind] in H;
      try (injection H as <- <-; apply K1, cframe_ctx, cframe_refl).
    apply (K2 (upd_ctx c x)); [apply cframe_ctx, cframe_refl|exact H].
  - assert (delivers c [] c /\ bare c) as K0 by (split; [apply grows_delivers, grows_refl|exact B]).
    destruct (c_isClient c); [injection H as <- <-; exact K0|]. destruct (negb _); [injection H as <- <-; exact K0|].
    destruct (w_early (c_world c)) as [|y e] eqn:W; [injection H as <- <-; exact K0|]. injection H as <- <-. split; [|exact B].
    exists []. split; [|apply from_nil]. unfold pending. cbn [c_world set_world set_early w_early c_readBuffer returned]. rewrite W, app_nil_r, app_assoc. now rewrite firstn_skipn.
Qed.
Lemma returns_delivers E cfg client c d c' : returns E c d c' -> inv cfg client c -> settled c -> bare c -> settled c' -> delivers c d c' /\ bare c'.
Proof.
  intros R Iv St B St'. assert (forall c1, cframe c c1 -> delivers c [] c1 /\ bare c1) as K1.
  { intros c1 F. apply cframe_bframe in F. split; [now apply grows_delivers, grows_bframe|]. destruct F as (F1 & F2 & _). intros X. rewrite F2. apply B. congruence. }
  destruct R.
  - eapply (read_delivers E cfg client) in H; eauto.
  - eapply (read_delivers E cfg client) in H; eauto. destruct r; try exact H. exfalso. eapply H0. reflexivity.
  - destruct (handshake E fuel os c) as [c' r] eqn:T. cbn [fst] in *. destruct (handshake_grows _ _ _ _ _ _ _ _ T Iv B St') as [G B']. split; [now apply grows_delivers|exact B'].
  - apply K1. unfold write. destruct (negb _); [apply cframe_refl|]. exact (proj1 (write_loop_frame c _ _ b 0%nat (qframe_refl c))).
  - unfold sendKeyUpdate in *. destruct (negb _); [apply K1, cframe_refl|].
    pose proof (frame_key_update (c_world c) (v_prims E) (c_world c) (c_state c) (if b then KeyUpdateRequested else KeyUpdateNotRequested) (frame_refl _)) as F.
    destruct (keyUpdate _ _ _ _) as [[w s] x]. cbn [fst] in F. assert (bframe c (set_state (set_world c w) s)) as B0 by exact (cframe_bframe _ _ (frame_cframe _ _ F)).
    assert (forall c1, bframe c c1 -> delivers c [] c1 /\ bare c1) as K2.
    { intros c1 Fb. split; [now apply grows_delivers, grows_bframe|]. destruct Fb as (F1 & F2 & _). intros X. rewrite F2. apply B. congruence. }
    assert (forall c1 a, bframe c c1 -> bframe c (fst (call c, _ <- sendAlert c1 a; (c, Err (A := unit) (EMsg "Alert while generating key update")))) /\
                         bframe c (fst (call c, _ <- sendAlert c1 a; (c, Err (A := unit) (EMsg "Alert during key update actions"))))) as K3.
    { intros c1 a Fb. pose proof (cframe_alert c1 c1 a (cframe_refl _)) as Q. destruct (sendAlert c1 a) as [c2 [u|e| |]]; cbn [sbind fst]; split; eapply bframe_trans; eauto using cframe_bframe. }
    destruct x as [acts|e| |]; try (apply K2, B0).
    + pose proof (cframe_actions E (o_ms o) (set_state (set_world c w) s) acts _ (cframe_refl _)) as Q. destruct (takeActions _ _ _ _) as [c2 r2]. unfold all in Q; cbn [fst] in Q.
      apply cframe_bframe in Q. pose proof (bframe_trans _ _ _ B0 Q) as B2. destruct r2 as [u|e| |]; try (apply K2; exact B2). destruct e as [a| |]; try (apply K2; exact B2). apply K2, K3, B2.
    + destruct e as [a| |]; try (apply K2, B0). apply K2, K3, B0.
  - apply K1, cframe_closed, cframe_refl.
  - apply K1. unfold arrives. apply cframe_in, cframe_refl.
  - apply K1. unfold taken. apply cframe_out, cframe_refl.
Qed.

Lemma returns_api E c d c' : returns E c d c' -> api E c c'.
Proof.
  destruct 1; try constructor.
  - pose proof (api_read E fuel os c n) as A. now rewrite H in A.
  - pose proof (api_read E fuel os c n) as A. now rewrite H in A.
Qed.
Lemma history_used E c0 out c : history E c0 out c -> used E c0 c.
Proof. induction 1; [constructor|]. econstructor; [eassumption|]. eapply returns_api; eauto. Qed.
Lemma history_delivers E cfg client c1 out c2 : history E c1 out c2 -> inv cfg client c1 -> settled c1 -> bare c1 -> delivers c1 out c2 /\ bare c2 /\ settled c2 /\ inv cfg client c2.
Proof.
  induction 1 as [|out c d c' H IH R St']; intros Iv St B.
  - split; [apply grows_delivers, grows_refl|auto].
  - destruct (IH Iv St B) as ((n & Pn & Fn) & Bc & Sc & Ic). destruct (returns_delivers _ _ _ _ _ _ R Ic Sc Bc St') as ((m & Pm & Fm) & B').
    split; [|split; [exact B'|split; [exact St'|]]].
    + exists (n ++ m). split; [|now apply from_app]. rewrite app_assoc, Pn, <- !app_assoc, Pm. reflexivity.
    + eapply inv_api; [eapply returns_api; exact R|exact Ic].
Qed.
Lemma history_order E cfg psks client input out1 c1 out2 c2 : history E (newConn cfg psks client input) out1 c1 -> history E c1 out2 c2 ->
  exists before after, from_records before /\ from_records after /\ before = out1 ++ pending c1 /\ out1 ++ out2 ++ pending c2 = before ++ after.
Proof.
  intros H1 H2. destruct (history_delivers _ cfg client _ _ _ H1) as ((n & Pn & Fn) & B1 & S1 & I1).
  - apply inv_new.
  - discriminate.
  - intros _. reflexivity.
  - destruct (history_delivers _ cfg client _ _ _ H2 I1 S1 B1) as ((m & Pm & Fm) & _). exists n, m. cbn in Pn.
    split; [exact Fn|]. split; [exact Fm|]. split; [exact Pn|]. rewrite Pn, <- app_assoc. f_equal. symmetry. exact Pm.
Qed.
(** Without tickets every connection is settled. *)
Definition calm (c : conn) : Prop := settled c /\ (c_isClient c = true -> w_early (c_world c) = []).
Definition calmframe (c0 c : conn) : Prop := bframe c0 c /\ c_isClient c = c_isClient c0.
Lemma cframe_calm c0 c : cframe c0 c -> calmframe c0 c.
Proof. intros H. split; [now apply cframe_bframe|apply H]. Qed.
Lemma calm_frame c0 c : calm c0 -> calmframe c0 c -> calm c.
Proof. intros [S K] [(A & B & W) R]. split; [intros X|intros X]; rewrite W; [apply S|apply K]; congruence. Qed.
Lemma turn_calm E fuel o cfg client c s c' r : cf_sendSessionTickets cfg = false -> handshake_turn E fuel o c s = (c', r) -> inv cfg client c -> c_hState c = Some s -> not_connected s -> calm c -> calm c'.
Proof.
  intros Nt T Iv S Nc [St Kc]. assert (c_complete c = false) as Cf. { rewrite (inv_complete _ _ _ Iv). unfold is_connected. rewrite S. destruct s; try reflexivity; contradiction. }
  pose proof (inv_turn E fuel o cfg client c s Iv S Nc) as I1. rewrite T in I1. unfold all in I1; cbn [fst] in I1.
  apply turn_cases in T. destruct T as (w & rn & N & D). pose proof (frame_next (v_prims E) (v_pki E) o fuel (c_world c) s) as F. rewrite N in F. unfold all in F; cbn [fst] in F.
  assert (c_isClient c = true -> w_early w = []) as Kw.
  { intros X. pose proof (inv_state _ _ _ Iv _ S) as So. rewrite (inv_role _ _ _ Iv) in X. subst client. rewrite (inv_role _ _ _ Iv) in Kc. specialize (Kc eq_refl).
    destruct s; cbn in So; try discriminate; cbn [step_frame] in F; destruct F as (_ & _ & F); try congruence; destruct So; discriminate. }
  assert (forall c1, cframe (set_world c w) c1 -> calm c1 /\ (c_isClient c1 = true -> w_early (c_world c1) = []) /\ c_complete c1 = false) as K.
  { intros c1 (A1 & _ & _ & A2 & _ & _ & A3). cbn in A1, A2, A3. split; [split; [intros X|intros X]|split; [intros X|]]; try congruence; rewrite A3; apply Kw; congruence. }
  destruct D as [(_ & Fc)|(s' & acts & retry & c1 & -> & Ta & D)]; [now apply K|].
  assert (cframe (set_world c w) c1) as F1. { pose proof (cframe_actions E (o_ms o) (set_world c w) acts (set_world c w) (cframe_refl _)) as Q. now rewrite Ta in Q. }
  destruct (K _ F1) as (C1 & W1 & _). destruct D as [(_ & -> & _)|(k & r1 & -> & D & _)]; [exact C1|].
  pose proof (inv_cfg _ _ _ I1) as Ci. apply cfg_now_tickets in Ci.
  apply on_connected_cases in D. cbv zeta in D. destruct D as [(Ic & -> & _)|(Ic & c3 & F3 & D)].
  - split; [intros _|intros _]; apply W1; exact Ic.
  - destruct F3 as (A1 & _ & _ & A2 & _ & A4 & A3). cbn in A1, A2, A3, A4, Ic. destruct D as [(_ & ->)|(_ & -> & Tk)].
    + destruct (w_early (c_world c3)) eqn:W; split; intros _; cbn; auto.
    + exfalso. unfold c_cfg in *. cbn in Tk, A4. congruence.
Qed.
Lemma loop_calm E fuel cfg client os : cf_sendSessionTickets cfg = false -> forall c s c' r, handshake_loop E fuel os c s = (c', r) -> inv cfg client c -> c_hState c = Some s -> calm c -> calm c'.
Proof.
  intros Nt. induction os as [|o os IH]; intros c s c' r H Iv S C.
  - assert (c' = c) as -> by (destruct s; cbn in H; congruence). exact C.
  - assert (not_connected s \/ c' = c) as [Nc| ->]; [destruct s; try (left; exact I); cbn in H; right; congruence| |exact C].
    assert (handshake_loop E fuel (o :: os) c s = (call c, '(s, retry) <- handshake_turn E fuel o c s;
      if cf_nonBlocking (c_cfg c) then (c, if retry : bool then alert AlertStatelessRetry else Ok tt) else handshake_loop E fuel os c s)) as Eq.
    { destruct s; try reflexivity. contradiction. }
    rewrite Eq in H. clear Eq. pose proof (inv_turn E fuel o cfg client c s Iv S Nc) as I1.
    destruct (handshake_turn E fuel o c s) as [c1 r1] eqn:T. unfold all in I1; cbn [fst] in I1. pose proof (turn_calm _ _ _ _ _ _ _ _ _ Nt T Iv S Nc C) as C1.
    destruct r1 as [[s1 retry]|e| |]; cbn [sbind] in H; try (injection H as <- <-; exact C1).
    pose proof (turn_hstate _ _ _ _ _ _ _ _ T) as S1. destruct (cf_nonBlocking _); [injection H as <- <-; exact C1|]. eapply IH; eauto.
Qed.
Lemma calm_api E cfg client c c' : cf_sendSessionTickets cfg = false -> api E c c' -> inv cfg client c -> calm c -> calm c'.
Proof.
  intros Nt A Iv C. destruct A.
  - unfold handshake. destruct (c_complete c); [exact C|]. destruct (c_hState c) as [s|] eqn:S.
    { destruct (handshake_loop E fuel os c s) as [c' r] eqn:L. eapply loop_calm; eauto. }
    destruct os as [|o os]; [exact C|]. pose proof (inv_setup E o cfg client c Iv S) as I1. destruct (handshakeSetup E o c) as [c1 r1] eqn:T. unfold all in I1; cbn [fst] in I1.
    assert (calm c1) as C1. { apply (calm_frame c c1 C). split; [eapply setup_bframe; eauto|]. rewrite (inv_role _ _ _ I1), (inv_role _ _ _ Iv). reflexivity. }
    destruct r1 as [u|e| |]; cbn [sbind fst]; try exact C1. destruct (_ && _); [exact C1|]. destruct (c_hState c1) as [s|] eqn:S1; [|exact C1].
    destruct (handshake_loop E fuel os c1 s) as [c' r] eqn:L. eapply loop_calm; eauto.
  - pose proof (inv_read E fuel os cfg client c n Iv) as I1. destruct (read E fuel os c n) as [c' r] eqn:R. unfold all in I1; cbn [fst] in *. destruct C as [St Kc].
    assert (c_isClient c' = c_isClient c) as Ro by (rewrite (inv_role _ _ _ I1), (inv_role _ _ _ Iv); reflexivity).
    destruct (is_connected c) eqn:Ic.
    + pose proof (complete_connected _ _ _ Iv Ic) as Cc. unfold read in R. rewrite Ic in R. cbn [negb] in R. rewrite handshake_complete in R by exact Cc. cbn [sbind] in R.
      assert (forall c1, cframe c c1 -> calm c1) as K1 by (intros c1 F; apply (calm_frame c c1 (conj St Kc)), cframe_calm, F).
      assert (forall c1, cframe c c1 -> read_loop E os c1 n = (c', r) -> calm c') as K2.
      { intros c1 F L. pose proof (K1 _ F) as [S1 _]. apply cframe_bframe in F. destruct F as (F1 & _). destruct (read_loop_delivers _ _ _ _ _ _ L S1) as (_ & Cx & Sx); [congruence|].
        split; [exact Sx|]. intros _. now apply Sx. }
      destruct (_ =? _)%nat; [injection R as <- <-; exact (conj St Kc)|]. destruct (cf_useDTLS _); cbn [sbind] in R; [|now apply (K2 c (cframe_refl c))].
      destruct os as [|o os]; cbn [sbind] in R; [injection R as <- <-; exact (conj St Kc)|]. destruct (checkTimers _ _ _) as [x [u|e| |]]; cbn [or_alert sbind] in R;
        try (injection R as <- <-; apply K1, cframe_ctx, cframe_refl).
      apply (K2 (upd_ctx c x)); [apply cframe_ctx, cframe_refl|exact R].
    + unfold read in R. rewrite Ic in R. cbn [negb] in R. destruct (c_isClient c) eqn:Cl; [injection R as <- <-; split; [exact St|exact (fun _ => Kc eq_refl)]|].
      assert (calm c) as C by (split; [exact St|intros X; congruence]).
      destruct (negb _); [injection R as <- <-; exact C|]. destruct (w_early (c_world c)) as [|y e] eqn:W; injection R as <- <-; [exact C|].
      split; [|intros X; cbn in X; congruence]. intros X. cbn in X. rewrite (inv_complete _ _ _ Iv) in X. congruence.
  - apply (calm_frame c _ C), cframe_calm. unfold write. destruct (negb _); [apply cframe_refl|]. exact (proj1 (write_loop_frame c _ _ b 0%nat (qframe_refl c))).
  - apply (calm_frame c _ C). pose proof (inv_update E o cfg client c b Iv) as I1. split; [|rewrite (inv_role _ _ _ I1), (inv_role _ _ _ Iv); reflexivity].
    unfold sendKeyUpdate in *. destruct (negb _); [apply bframe_refl|].
    pose proof (frame_key_update (c_world c) (v_prims E) (c_world c) (c_state c) (if b then KeyUpdateRequested else KeyUpdateNotRequested) (frame_refl _)) as F.
    destruct (keyUpdate _ _ _ _) as [[w s] x]. cbn [fst] in F. assert (bframe c (set_state (set_world c w) s)) as B0 by exact (cframe_bframe _ _ (frame_cframe _ _ F)).
    assert (forall c1 a, bframe c c1 -> bframe c (fst (call c, _ <- sendAlert c1 a; (c, Err (A := unit) (EMsg "Alert while generating key update")))) /\
                         bframe c (fst (call c, _ <- sendAlert c1 a; (c, Err (A := unit) (EMsg "Alert during key update actions"))))) as K3.
    { intros c1 a Fb. pose proof (cframe_alert c1 c1 a (cframe_refl _)) as Q. destruct (sendAlert c1 a) as [c2 [u|e| |]]; cbn [sbind fst]; split; eapply bframe_trans; eauto using cframe_bframe. }
    destruct x as [acts|e| |]; try apply B0.
    + pose proof (cframe_actions E (o_ms o) (set_state (set_world c w) s) acts _ (cframe_refl _)) as Q. destruct (takeActions _ _ _ _) as [c2 r2]. unfold all in Q; cbn [fst] in Q.
      apply cframe_bframe in Q. pose proof (bframe_trans _ _ _ B0 Q) as B2. destruct r2 as [u|e| |]; try exact B2. destruct e as [a| |]; try exact B2. apply K3, B2.
    + destruct e as [a| |]; try apply B0. apply K3, B0.
  - exact C.
  - apply (calm_frame c _ C), cframe_calm. unfold arrives. apply cframe_in, cframe_refl.
  - apply (calm_frame c _ C), cframe_calm. unfold taken. apply cframe_out, cframe_refl.
Qed.
Lemma used_settled E cfg psks client input c : cf_sendSessionTickets cfg = false -> used E (newConn cfg psks client input) c -> settled c.
Proof.
  intros Nt U. enough (calm c) as [S _] by exact S. induction U as [|c c' U IH A].
  - split; [discriminate|reflexivity].
  - eapply calm_api; eauto. eapply inv_used; eauto.
Qed.
