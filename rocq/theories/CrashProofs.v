(** C45: where a panic can come from in the record and handshake layers over a stream. *)
From Verif Require Import Base Frame FrameProofs Record RecordSpec RecordProofs RecordProofs2 Timer Handshake HandshakeProofs Crypto Messages
  Negotiation Machine Conn CrashSpec.

(** ** Frames *)

Lemma process_kept d f f' h b : process d f = (f', Ok (h, b)) -> f_header f' = h /\ f_body f' = b.
Proof.
  unfold process. generalize 3%nat as n. intros n. revert f. induction n as [|n IH]; intros f; [discriminate|]. cbn [process_loop].
  destruct (negb _); [discriminate|]. destruct (_ <? _)%nat; [discriminate|]. destruct (f_state (fill f)).
  - destruct (frameLen _ _); try discriminate. apply IH.
  - now intros [= <- <- <-].
Qed.
Lemma process_length d f f' h b : lawful_framing d -> fr_ok d f -> process d f = (f', Ok (h, b)) ->
  frameLen d h = Ok (List.length b).
Proof.
  intros L F E. pose proof (process_spec d f L F) as S. destruct (first_frame d (pending f)) as [[r rest]|] eqn:Ef.
  2:{ destruct S as (g & E' & _). congruence. }
  destruct S as (g & E' & _). rewrite E in E'. injection E' as _ <-. unfold first_frame in Ef.
  destruct (Nat.ltb_spec (List.length (pending f)) (headerLen d)); [discriminate|].
  destruct (frameLen d (firstn (headerLen d) (pending f))) as [n|e| |] eqn:El; try discriminate.
  destruct (Nat.ltb_spec (List.length (skipn (headerLen d) (pending f))) n); [discriminate|].
  injection Ef as <- <- _. rewrite El. f_equal. rewrite firstn_length. lia.
Qed.
Lemma nextFrame_kept d conn f conn' f' h b : lawful_framing d -> fr_ok d f -> nextFrame d conn f = (conn', f', Ok (h, b)) ->
  f_header f' = h /\ f_body f' = b /\ frameLen d h = Ok (List.length b).
Proof.
  intros L. unfold nextFrame. generalize (S (S (List.length conn))) as n. intros n. revert conn f.
  induction n as [|n IH]; intros cn f F; [discriminate|]. cbn [nextFrame_loop].
  assert (S : forall cn g, fr_ok d g -> (match process d g with
        | (f, Err e) => if is_wb e then nextFrame_loop n d cn f else (cn, f, Err e)
        | (f, r) => (cn, f, r)
        end) = (conn', f', Ok (h, b)) -> f_header f' = h /\ f_body f' = b /\ frameLen d h = Ok (List.length b)).
  { intros cn0 g G. destruct (process d g) as [g' r] eqn:E. destruct r as [[h0 b0]|e| |]; try discriminate.
    - intros [= -> -> -> ->]. destruct (process_kept _ _ _ _ _ E). pose proof (process_length _ _ _ _ _ L G E). auto.
    - destruct (is_wb e); [|discriminate]. apply IH. destruct (process_total d g L G) as (g2 & r & E2 & F2 & _). congruence. }
  destruct (_ <? _)%nat.
  - destruct cn as [|[[|x c]|e] cn]; try discriminate. apply S. now apply fr_ok_add.
  - now apply S.
Qed.

(** ** The record layer *)

Definition iv_ok (c : cstate) : Prop := c_aead c <> None -> (8 <= List.length (c_iv c))%nat.
Definition core_fine (dir : direction) (r : rcore) : Prop := r_dir r = dir /\ r_datagram r = false /\ Forall iv_ok (r_heap r).
Definition rl_fine (dir : direction) (l : rlayer) : Prop := core_fine dir (l_core l) /\ fr_ok (recordFraming false) (l_frame l).

Lemma iv_cur d r : core_fine d r -> forall i, iv_ok (get_cs r i).
Proof.
  intros (_ & _ & H) i. unfold get_cs. destruct (Nat.lt_ge_cases i (List.length (r_heap r))) as [L|G].
  - rewrite Forall_forall in H. apply H, nth_In, L.
  - rewrite nth_overflow by auto. intros C. now contradiction C.
Qed.
Lemma Forall_set_nth {A} (Q : A -> Prop) i x l : Q x -> Forall Q l -> Forall Q (set_nth i x l).
Proof. intros Hx. revert i. induction l as [|y l IH]; intros [|i] F; cbn; auto; inversion F; subst; constructor; auto. Qed.
Lemma core_fine_set d r i c : core_fine d r -> iv_ok c -> core_fine d (set_cs r i c).
Proof. intros (H1 & H2 & H3) H. unfold core_fine, set_cs. cbn. auto using Forall_set_nth. Qed.

Lemma strip_none p : strip_padding p = None -> Forall (eq x00) p.
Proof.
  intros H. apply Forall_forall. intros b Hb. destruct (Byte.byte_eq_dec x00 b) as [|n]; auto. exfalso.
  apply (strip_rev_some (rev p)); auto. apply Exists_exists. exists b. split; [now rewrite <- in_rev|congruence].
Qed.

Lemma inc_cases c : (exists c', incrementSequenceNumber c = Ok c' /\ c_aead c' = c_aead c /\ c_iv c' = c_iv c) \/
  (incrementSequenceNumber c = Panic /\ 2 ^ 48 - 1 <= c_seq c).
Proof.
  unfold incrementSequenceNumber. destruct (N.leb_spec (2 ^ 48 - 1) (c_seq c)); [right; auto|left; eexists; split; [reflexivity|cbn; auto]].
Qed.
Lemma computeNonce_ok iv seq : (8 <= List.length iv)%nat -> exists n, computeNonce iv seq = Ok n.
Proof. intros H. unfold computeNonce. destruct (Nat.ltb_spec (List.length iv) 8); [lia|eauto]. Qed.

Lemma handleFrame_crash r old h b r' x : core_fine DirRead r -> List.length h = 5%nat ->
  frameLen (recordFraming false) h = Ok (List.length b) -> handleFrame r old h b = (r', x) ->
  core_fine DirRead r' /\ x <> Fuel /\
  (x = Panic -> r' = r /\ (2 ^ 48 - 1 <= c_seq (cur r) \/
    exists k nonce p, c_aead (cur r) = Some k /\ computeNonce (c_iv (cur r)) (c_seq (cur r)) = Ok nonce /\
      open k nonce h b = Some p /\ Forall (eq x00) p)).
Proof.
  intros C Lh Lf E. unfold handleFrame in E. destruct h as [|ty h]; [discriminate|]. revert E.
  destruct (negb _). { intros [= <- <-]. repeat split; auto; try discriminate; apply C. }
  rewrite Lh. change (5 - 2)%nat with 3%nat. cbn [recordFraming frameLen recordHeaderLen] in Lf. change (5 - 2)%nat with 3%nat in Lf.
  assert (Ls : N.to_nat (unbe (skipn 3 (ty :: h))) = List.length b) by congruence. rewrite Ls.
  destruct (_ <? _). { intros [= <- <-]. repeat split; auto; try discriminate; apply C. }
  rewrite firstn_all, Nat.sub_diag. cbn [repeat]. rewrite app_nil_r.
  destruct C as (C1 & C2 & C3). rewrite C2. cbn [bind]. fold (cur r). cbv zeta.
  assert (C : core_fine DirRead r) by (split; auto).
  pose proof (iv_cur _ _ C (r_cipher r)) as I. fold (cur r) in I.
  destruct (c_aead (cur r)) as [k|] eqn:Ek.
  - unfold decrypt. rewrite C1. fold (cur r). destruct (_ <? _)%nat. { intros [= <- <-]. repeat split; auto; discriminate. }
    rewrite Ek. destruct (computeNonce_ok (c_iv (cur r)) (c_seq (cur r))) as (n & En). { apply I. congruence. }
    rewrite En. cbn [bind]. destruct (open k n (ty :: h) b) as [p|] eqn:Eo; [|intros [= <- <-]; repeat split; auto; discriminate].
    destruct (strip_padding p) as [[t fr]|] eqn:Es.
    + cbn [bind p_type p_seq p_fragment]. destruct (_ <? _). { intros [= <- <-]. repeat split; auto; discriminate. }
      destruct (inc_cases (cur r)) as [(c' & Ei & A1 & A2)|(Ei & W)]; rewrite Ei; cbn [bind]; intros [= <- <-].
      * split; [|split; discriminate]. apply core_fine_set; auto. unfold iv_ok. rewrite A1, A2. exact I.
      * repeat split; auto; discriminate.
    + cbn [bind]. intros [= <- <-]. repeat split; auto; try discriminate. right. exists k, n, p. repeat split; auto. now apply strip_none.
  - cbn [bind p_type p_seq p_fragment]. destruct (_ <? _). { intros [= <- <-]. repeat split; auto; discriminate. }
    destruct (inc_cases (cur r)) as [(c' & Ei & A1 & A2)|(Ei & W)]; rewrite Ei; cbn [bind]; intros [= <- <-].
    + split; [|split; discriminate]. apply core_fine_set; auto. unfold iv_ok. rewrite A1, A2. exact I.
    + repeat split; auto; discriminate.
Qed.

Lemma nextRecord_crash l old l' r : rl_fine DirRead l -> nextRecord l old = (l', r) ->
  rl_fine DirRead l' /\ r <> Fuel /\ (r = Panic -> opened_zeros l' \/ worn_out l').
Proof.
  intros [C F]. unfold nextRecord. destruct (l_cached l). { intros [= <- <-]. split; [split; auto|split; discriminate]. }
  pose proof C as (C1 & C2 & C3). rewrite C2.
  destruct (nextFrame_total _ (l_in l) (l_frame l) (recordFraming_lawful false) F) as (cn & f & x & E & F' & P1 & P2 & P3). rewrite E.
  destruct x as [[h b]|e| |]; try congruence; cbn [l_core l_out].
  - destruct (nextFrame_kept _ _ _ _ _ _ _ (recordFraming_lawful false) F E) as (K1 & K2 & K3).
    destruct (handleFrame (l_core l) old h b) as [core y] eqn:Eh.
    destruct (handleFrame_crash _ _ _ _ _ _ C (P3 _ _ eq_refl) K3 Eh) as (C' & Q1 & Q2).
    assert (G : forall o, rl_fine DirRead (mkRl core f o cn (l_out l))) by (intros; split; auto).
    destruct y as [pt|e| |]; intros [= <- <-]; (split; [apply G|]); (split; [congruence|]); try discriminate. intros _.
    destruct (Q2 eq_refl) as (-> & [W|(k & n & p & Z1 & Z2 & Z3 & Z4)]); [now right|left].
    exists k, n, p. cbn. rewrite K1, K2. auto.
  - intros [= <- <-]. split; [split; auto|split; discriminate].
Qed.
Lemma readRecordE_crash l old l' r : rl_fine DirRead l -> readRecordE old l = (l', r) ->
  rl_fine DirRead l' /\ r <> Fuel /\ (r = Panic -> opened_zeros l' \/ worn_out l').
Proof.
  intros F. unfold readRecordE. destruct (nextRecord l old) as [l1 r1] eqn:E. intros [= <- <-].
  destruct (nextRecord_crash _ _ _ _ F E) as ([C Ff] & Q1 & Q2). split; [split; auto|]. split; auto.
Qed.

Lemma write_crash l pt l' r : rl_fine DirWrite l -> writeRecord l pt = (l', r) ->
  rl_fine DirWrite l' /\ r <> Fuel /\ (r = Panic -> worn_out l').
Proof.
  intros [C F]. unfold writeRecord, writeRecordWithPadding, protect. fold (cur (l_core l)).
  pose proof C as (C1 & C2 & C3). rewrite C2. pose proof (iv_cur _ _ C (r_cipher (l_core l))) as I. fold (cur (l_core l)) in I.
  assert (K : forall c', c_aead c' = c_aead (cur (l_core l)) -> c_iv c' = c_iv (cur (l_core l)) ->
     forall o, rl_fine DirWrite (mkRl (set_cs (l_core l) (r_cipher (l_core l)) c') (l_frame l) (l_cached l) (l_in l) o)).
  { intros c' A1 A2 o. split; auto. apply core_fine_set; auto. unfold iv_ok. now rewrite A1, A2. }
  destruct (c_aead (cur (l_core l))) as [k|] eqn:Ek.
  - unfold recordHeader. cbn [bind]. unfold encrypt. rewrite C1.
    destruct (computeNonce_ok (c_iv (cur (l_core l))) (combineSeq (cur (l_core l)) false)) as (n & En). { apply I. congruence. }
    rewrite En. cbn [bind]. destruct (_ <? _). { intros [= <- <-]. split; [split; auto|split; discriminate]. }
    destruct (inc_cases (cur (l_core l))) as [(c' & Ei & A1 & A2)|(Ei & W)]; rewrite Ei; cbn [bind]; intros [= <- <-].
    + split; [apply K; congruence|split; discriminate].
    + split; [split; auto|]. split; [discriminate|auto].
  - unfold recordHeader. cbn [bind Nat.ltb Nat.leb]. destruct (_ <? _). { intros [= <- <-]. split; [split; auto|split; discriminate]. }
    destruct (inc_cases (cur (l_core l))) as [(c' & Ei & A1 & A2)|(Ei & W)]; rewrite Ei; cbn [bind]; intros [= <- <-].
    + split; [apply K; congruence|split; discriminate].
    + split; [split; auto|]. split; [discriminate|auto].
Qed.

(** ** The handshake layer *)

Definition tctx (x : hctx) : Prop :=
  rl_fine DirRead (hl_conn (x_in x)) /\ rl_fine DirWrite (hl_conn (x_out x)) /\
  hl_datagram (x_in x) = false /\ hl_datagram (x_out x) = false /\ hl_queued (x_in x) = [] /\
  fr_ok (handshakeFraming false) (hl_frame (x_in x)) /\ hl_max (x_out x) = N.to_nat maxFragmentLen /\ hl_queued (x_out x) = [].
Definition stuck_in (x : hctx) : Prop :=
  opened_zeros (hl_conn (x_in x)) \/ worn_out (hl_conn (x_in x)) \/ short_alert_read (hl_conn (x_in x)).

Lemma tctx_in x h : tctx x -> rl_fine DirRead (hl_conn h) -> hl_datagram h = false -> hl_queued h = [] ->
  fr_ok (handshakeFraming false) (hl_frame h) -> tctx (set_in x h).
Proof. intros (T1 & T2 & T3 & T4 & T5 & T6 & T7 & T8) H1 H2 H3 H4. unfold tctx, set_in. cbn. auto 10. Qed.
Lemma tctx_out x h : tctx x -> rl_fine DirWrite (hl_conn h) -> hl_datagram h = false -> hl_max h = N.to_nat maxFragmentLen -> hl_queued h = [] -> tctx (set_out x h).
Proof. intros (T1 & T2 & T3 & T4 & T5 & T6 & T7 & T8) H1 H2 H3 H4. unfold tctx, set_out. cbn. auto 10. Qed.

Lemma hl_readRecord_crash now x x' r : tctx x -> hl_readRecord now x = (x', r) -> tctx x' /\ r <> Fuel /\ (r = Panic -> stuck_in x').
Proof.
  intros T. pose proof T as (T1 & T2 & T3 & T4 & T5 & T6 & T7 & T8). unfold hl_readRecord. rewrite T3.
  destruct (readRecordE false (hl_conn (x_in x))) as [cn y] eqn:E. destruct (readRecordE_crash _ _ _ _ T1 E) as (T1' & Q1 & Q2).
  set (x1 := set_in x (set_conn (x_in x) cn)). assert (T' : tctx x1) by (apply tctx_in; auto).
  destruct y as [pt|e| |]; try congruence.
  2:{ intros [= <- <-]. split; [auto|split; discriminate]. }
  2:{ intros [= <- <-]. split; [auto|split; [discriminate|intros _]]. destruct (Q2 eq_refl); [left|right; left]; assumption. }
  destruct (negb _). { intros [= <- <-]. split; [auto|split; discriminate]. }
  destruct (Byte.eqb (p_type pt) rtAck). { cbn [negb]. intros [= <- <-]. split; [auto|split; discriminate]. }
  destruct (Byte.eqb (p_type pt) rtAlert) eqn:Ea.
  { assert (St : (List.length (p_fragment pt) < 2)%nat -> stuck_in x1).
    { intros L. right. right. exists (hl_conn (x_in x)), pt. split; [exact E|]. split; [|exact L]. apply Byte.byte_dec_bl. exact Ea. }
    destruct (p_fragment pt) as [|a [|b fr]]; intros [= <- <-]; (split; [auto|]); (split; [discriminate|]); try discriminate; intros _; apply St; cbn; lia. }
  destruct (negb (_ =? _)). { destruct (_ || _); intros [= <- <-]; (split; [auto|split; discriminate]). }
  intros [= <- <-]. split; [|split; discriminate]. apply tctx_in; cbn; auto.
Qed.

Lemma readFrame_crash fuel now x x' r : tctx x -> readFrame_loop fuel now x = (x', r) ->
  tctx x' /\ (r = Panic -> stuck_in x') /\ (forall h b, r = Ok (h, b) -> List.length h = 4%nat /\ b = f_body (hl_frame (x_in x'))).
Proof.
  revert x. induction fuel as [|fuel IH]; intros x T. { intros [= <- <-]. split; [auto|split; discriminate]. }
  cbn [readFrame_loop].
  set (retry := fun e => negb (hl_nonblocking (x_in x)) && is_wb e).
  assert (S : forall y, tctx y -> (let '(f, r) := process (handshakeFraming (hl_datagram (x_in y))) (hl_frame (x_in y)) in
        match r with
        | Err e => if negb (hl_nonblocking (x_in x)) && is_wb e then readFrame_loop fuel now (set_in y (set_frame (x_in y) f)) else (set_in y (set_frame (x_in y) f), Err e)
        | _ => (set_in y (set_frame (x_in y) f), r)
        end) = (x', r) -> tctx x' /\ (r = Panic -> stuck_in x') /\ (forall h b, r = Ok (h, b) -> List.length h = 4%nat /\ b = f_body (hl_frame (x_in x')))).
  { intros y Ty. pose proof Ty as (Y1 & Y2 & Y3 & Y4 & Y5 & Y6 & Y7 & Y8). rewrite Y3.
    destruct (process_total _ (hl_frame (x_in y)) (handshakeFraming_lawful false) Y6) as (f & q & E & F & P1 & P2 & P3 & P4). rewrite E.
    assert (T' : tctx (set_in y (set_frame (x_in y) f))) by (apply tctx_in; auto).
    destruct q as [[h b]|e| |]; try congruence.
    - intros [= <- <-]. split; auto. split; [discriminate|]. intros h' b' [= <- <-]. split; [now apply (P3 h b)|].
      destruct (process_kept _ _ _ _ _ E) as [_ <-]. reflexivity.
    - destruct (_ && _).
      + apply IH. exact T'.
      + intros [= <- <-]. split; [auto|split; discriminate]. }
  destruct (_ <? _)%nat.
  - destruct (hl_readRecord now x) as [y q] eqn:E. destruct (hl_readRecord_crash _ _ _ _ T E) as (Ty & Q1 & Q2).
    destruct q as [u|e| |]; try congruence.
    + apply S, Ty.
    + destruct (_ && _). { apply S, Ty. } intros [= <- <-]. split; [auto|split; discriminate].
    + intros [= <- <-]. split; [auto|split; [auto|discriminate]].
  - apply S, T.
Qed.

Lemma set_queue_same x : hl_queued (x_in x) = [] -> set_in x (set_queue (x_in x) (hl_msgSeq (x_in x)) []) = x.
Proof. destruct x as [[? ? ? ? ? q ? ?] ? ? ? ? ?]. cbn. now intros ->. Qed.

Lemma readMessage_crash fuel now x x' r : tctx x -> readMessage fuel now x = (x', r) ->
  tctx x' /\ (r = Panic -> stuck_in x') /\ r <> Ok None /\ (forall m, r = Ok (Some m) -> hm_body m = f_body (hl_frame (x_in x'))).
Proof.
  intros T. pose proof T as (T1 & T2 & T3 & T4 & T5 & T6 & T7 & T8). unfold readMessage, checkMessageAvailable. rewrite T5. cbn [q_check in_queue fst snd].
  unfold in_queue. cbn [fst snd]. rewrite set_queue_same by auto. cbn [sbind].
  destruct (readFrame_loop fuel now x) as [y q] eqn:E. destruct (readFrame_crash _ _ _ _ _ T E) as (Ty & Q1 & Q2).
  pose proof Ty as (Y1 & Y2 & Y3 & Y4 & Y5 & Y6 & Y7 & Y8).
  destruct q as [[h b]|e| |]; cbn [sbind].
  - destruct (Q2 _ _ eq_refl) as [Lh Hb]. rewrite Y3. destruct h as [|ty h]; [discriminate|]. cbn [message_of].
    intros [= <- <-]. split; auto. split; [discriminate|]. split; [discriminate|]. now intros m [= <-].
  - intros [= <- <-]. repeat split; auto; try discriminate; apply Ty.
  - intros [= <- <-]. split; auto. split; auto. split; discriminate.
  - intros [= <- <-]. split; auto. split; [discriminate|]. split; discriminate.
Qed.

Lemma hr_read_loop_crash fuel inner now x x' r : tctx x -> hr_read_loop fuel inner now x = (x', r) ->
  tctx x' /\ (r = Panic -> stuck_in x') /\ (forall m, r = Ok m -> hm_body m = f_body (hl_frame (x_in x'))).
Proof.
  intros T. destruct fuel as [|fuel]; cbn [hr_read_loop]. { intros [= <- <-]. split; auto. split; discriminate. }
  destruct (readMessage inner now x) as [y q] eqn:E. destruct (readMessage_crash _ _ _ _ _ T E) as (Ty & Q1 & Q2 & Q3).
  destruct q as [[m|]|e| |]; try congruence; intros [= <- <-]; (split; [auto|]).
  - split; [discriminate|]. intros m' [= <-]. now apply Q3.
  - destruct (is_wb e); split; discriminate.
  - split; [auto|discriminate].
  - split; discriminate.
Qed.

Lemma hr_read_crash fuel o w w' r : tctx (w_ctx w) -> hr_read fuel o w = (w', r) ->
  w' = set_ctx w (w_ctx w') /\ tctx (w_ctx w') /\ (r = Panic -> stuck_in (w_ctx w')) /\
  (forall m, r = Ok m -> hm_body m = f_body (hl_frame (x_in (w_ctx w')))).
Proof.
  intros T. unfold hr_read. destruct (hr_read_loop fuel fuel (o_ms o) (w_ctx w)) as [y q] eqn:E.
  intros [= <- <-]. split; [reflexivity|]. apply (hr_read_loop_crash _ _ _ _ _ _ T E).
Qed.

(** ** Writing messages *)

Definition same_in (x y : hctx) : Prop := x_in y = x_in x.

Lemma writeFragment_crash x m start x' r : tctx x -> hm_datagram m = false -> writeFragment x m start (hl_max (x_out x)) = (x', r) ->
  tctx x' /\ same_in x x' /\ (r = Panic -> worn_out (hl_conn (x_out x'))).
Proof.
  intros T Hm. pose proof T as (T1 & T2 & T3 & T4 & T5 & T6 & T7 & T8).
  assert (G : (4 < hl_max (x_out x))%nat) by (rewrite T7; unfold maxFragmentLen; lia).
  assert (K : forall cn, rl_fine DirWrite cn -> tctx (set_out x (set_conn (x_out x) cn))) by (intros; apply tctx_out; auto). clear T7.
  generalize dependent (hl_max (x_out x)). intros n G. unfold writeFragment. rewrite Hm, T4.
  destruct (Nat.leb_spec n (if (start =? 0)%nat then handshakeHeaderLen false else 0%nat)) as [H|_].
  { exfalso. revert H. change (handshakeHeaderLen false) with 4%nat. destruct (start =? 0)%nat; lia. }
  destruct (fragmentAcked _ _ _ _). { intros [= <- <-]. split; [auto|split; [reflexivity|discriminate]]. }
  destruct (writeRecord _ _) as [cn y] eqn:E. intros [= <- <-]. destruct (write_crash _ _ _ _ T2 E) as (W1 & W2 & W3).
  split; [now apply K|]. split; [reflexivity|]. destruct y; cbn [bind]; try discriminate. intros _. now apply W3.
Qed.
Lemma writeMessage_crash x m x' r : tctx x -> hm_datagram m = false -> writeMessage x m = (x', r) ->
  tctx x' /\ same_in x x' /\ (r = Panic -> worn_out (hl_conn (x_out x'))).
Proof.
  intros T Hm. unfold writeMessage. destruct (_ <? _). { intros [= <- <-]. split; [auto|split; [reflexivity|discriminate]]. }
  generalize (S (List.length (hm_body m))) as n. intros n. generalize 0%nat at 2 as wr. generalize 0%nat as st. revert x T.
  induction n as [|n IH]; intros x T st wr. { intros [= <- <-]. split; [auto|split; [reflexivity|discriminate]]. }
  cbn [writeMessage_loop]. destruct (writeFragment x m st (hl_max (x_out x))) as [y q] eqn:E.
  destruct (writeFragment_crash _ _ _ _ _ T Hm E) as (Ty & Sy & Q). destruct q as [[wrote s2]|e| |]; cbn [sbind].
  - destruct (_ <=? _)%nat. { intros [= <- <-]. split; [auto|split; [auto|discriminate]]. }
    intros H. destruct (IH _ Ty _ _ H) as (G1 & G2 & G3). split; [auto|split; [|auto]]. unfold same_in in *. congruence.
  - intros [= <- <-]. split; [auto|split; [auto|discriminate]].
  - intros [= <- <-]. auto.
  - intros [= <- <-]. split; [auto|split; [auto|discriminate]].
Qed.
Lemma writeMessages_crash ms x x' r : tctx x -> Forall (fun m => hm_datagram m = false) ms -> writeMessages x ms = (x', r) ->
  tctx x' /\ same_in x x' /\ (r = Panic -> worn_out (hl_conn (x_out x'))).
Proof.
  revert x x' r. induction ms as [|m ms IH]; intros x x' r T F; cbn [writeMessages]. { intros [= <- <-]. split; [auto|split; [reflexivity|discriminate]]. }
  inversion F as [|? ? Hm Fm]; subst. destruct (writeMessage x m) as [y q] eqn:E. destruct (writeMessage_crash _ _ _ _ T Hm E) as (Ty & Sy & Q).
  destruct q as [n|e| |]; cbn [sbind].
  - destruct (writeMessages y ms) as [z q] eqn:E2. destruct (IH _ _ _ Ty Fm E2) as (Tz & Sz & Qz). unfold same_in in *.
    destruct q as [k|e| |]; cbn [sbind]; intros [= <- <-]; (split; [auto|split; [congruence|]]); auto; discriminate.
  - intros [= <- <-]. split; [auto|split; [auto|discriminate]].
  - intros [= <- <-]. auto.
  - intros [= <- <-]. split; [auto|split; [auto|discriminate]].
Qed.
