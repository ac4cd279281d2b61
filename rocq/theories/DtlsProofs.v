(** DTLS handshake reading: reassembly, order, progress. *)
From Verif Require Import Base Syntax Frame FrameProofs Record RecordSpec RecordProofs RecordProofs2 Timer Handshake HandshakeSpec HandshakeProofs DtlsSpec.
From Coq Require Import Sorting.Sorted.

(** ** From the connection to the queue *)

(** What reading fragments [fs] gives: the queue is consulted before each. *)
Fixpoint qreads (k : nat) (s : N * list hmsg) (fs : list hmsg) : list (res hmsg) :=
  match k with
  | O => []
  | S k =>
      match q_check (fst s) (snd s) with
      | (s, Ok (Some m)) => Ok m :: qreads k s fs
      | (s, Ok None) =>
          match fs with
          | [] => []
          | f :: fs =>
              match q_receive (fst s) (snd s) f with
              | (s, Ok (Some m)) => Ok m :: qreads k s fs
              | (s, Ok None) => qreads k s fs
              | (s, Err e) => Err e :: qreads k s fs
              | (_, Panic) => [Panic]
              | (_, Fuel) => []
              end
          end
      | (s, Err e) => Err e :: qreads k s fs
      | (_, Panic) => [Panic]
      | (_, Fuel) => []
      end
  end.

Lemma assemble_err fs : forall seq n buf fin e, assemble seq n fs buf fin = Err e -> is_wb e = false.
Proof.
  induction fs as [|f fs IH]; intros seq n buf fin e; cbn [assemble]; [discriminate|].
  destruct (_ <? _); [discriminate|]. destruct (negb _); [now intros [= <-]|]. destruct (_ <? _); [discriminate|].
  destruct (_ <? _); [destruct (_ <? _); [discriminate|]; cbv zeta; destruct (_ =? _); [discriminate|]|]; apply IH.
Qed.
Lemma q_check_err s q s' e : q_check s q = (s', Err e) -> is_wb e = false.
Proof.
  unfold q_check. destruct q as [|m q]; [discriminate|]. destruct (negb _); [discriminate|]. destruct (whole m); [discriminate|].
  destruct (assemble _ _ _ _ _) as [[b|]|e'| |] eqn:E; try discriminate. intros [= _ <-]. eapply assemble_err; eauto.
Qed.
Lemma q_receive_err s q m s' e : q_receive s q m = (s', Err e) -> is_wb e = false.
Proof.
  unfold q_receive. destruct (_ <? _); [discriminate|]. destruct (_ && _); [discriminate|]. apply q_check_err.
Qed.
Lemma assemble_no_fuel fs : forall seq n buf fin, assemble seq n fs buf fin <> Fuel.
Proof.
  induction fs as [|f fs IH]; intros seq n buf fin; cbn [assemble]; [discriminate|].
  destruct (_ <? _); [discriminate|]. destruct (negb _); [discriminate|]. destruct (_ <? _); [discriminate|].
  destruct (_ <? _); [destruct (_ <? _); [discriminate|]; cbv zeta; destruct (_ =? _); [discriminate|]|]; apply IH.
Qed.
Lemma q_check_none s q s' : q_check s q = (s', Ok None) -> s' = (s, q).
Proof.
  unfold q_check. destruct q as [|m q]; [now intros [= <-]|]. destruct (negb _); [now intros [= <-]|]. destruct (whole m); [discriminate|].
  destruct (assemble _ _ _ _ _) as [[b|]|e'| |]; try discriminate. now intros [= <-].
Qed.

(** The header of a fragment on the wire. *)
Lemma dtls_wire_frame f rest : wire_ok f ->
  first_frame (handshakeFraming true) (hm_marshal f ++ rest) =
  Some (Ok ([hm_type f] ++ be 3 (hm_length f) ++ be 2 (hm_seq f) ++ be 3 (hm_offset f) ++ be 3 (len (hm_body f)), hm_body f), rest).
Proof.
  intros (Hd & Hs & Ho & Hl & Hb & Hc).
  set (hdr := [hm_type f] ++ be 3 (hm_length f) ++ be 2 (hm_seq f) ++ be 3 (hm_offset f) ++ be 3 (len (hm_body f))).
  assert (Lh : List.length hdr = 12%nat) by (subst hdr; rewrite !app_length, !be_length; reflexivity).
  replace (hm_marshal f ++ rest) with (hdr ++ hm_body f ++ rest) by (subst hdr; unfold hm_marshal; rewrite Hd; now rewrite <- !app_assoc).
  unfold first_frame. cbn [headerLen handshakeFraming handshakeHeaderLen].
  assert (Ll : List.length (hdr ++ hm_body f ++ rest) = (12 + List.length (hm_body f ++ rest))%nat) by (rewrite app_length, Lh; reflexivity).
  rewrite Ll. destruct (Nat.ltb_spec (12 + List.length (hm_body f ++ rest)) 12); [lia|].
  rewrite firstn_app_n, skipn_app_n by auto.
  assert (El : N.to_nat (unbe (skipn (List.length hdr - 3) hdr)) = List.length (hm_body f)).
  { rewrite Lh. change (12 - 3)%nat with 9%nat. subst hdr. rewrite !app_assoc.
    rewrite skipn_app_n by (rewrite !app_length, !be_length; reflexivity).
    rewrite unbe_be_small by exact Hb. unfold len. lia. }
  change (frameLen (handshakeFraming true) hdr) with (Ok (N.to_nat (unbe (skipn (List.length hdr - 3) hdr)))). cbv iota. rewrite El, app_length.
  destruct (Nat.ltb_spec (List.length (hm_body f) + List.length rest) (List.length (hm_body f))); [lia|].
  rewrite firstn_app_n, skipn_app_n by auto. reflexivity.
Qed.

Lemma message_of_wire f : wire_ok f ->
  message_of true ([hm_type f] ++ be 3 (hm_length f) ++ be 2 (hm_seq f) ++ be 3 (hm_offset f) ++ be 3 (len (hm_body f))) (hm_body f) = Ok f.
Proof.
  intros (Hd & Hs & Ho & Hl & Hb & Hc). cbn [message_of app].
  rewrite firstn_app_n by (now rewrite ?app_length, !be_length). rewrite skipn_app_n by (now rewrite ?app_length, !be_length). rewrite firstn_app_n by (now rewrite ?app_length, !be_length).
  rewrite (app_assoc (be 3 (hm_length f))), skipn_app_n by (now rewrite ?app_length, !be_length).
  rewrite firstn_app_n by (now rewrite ?app_length, !be_length). rewrite !unbe_be_small by auto. destruct f; cbn in *. subst. reflexivity.
Qed.

Definition in_state (x : hctx) : N * list hmsg := (hl_msgSeq (x_in x), hl_queued (x_in x)).

Lemma set_queue_reading x s q pts : reading true x pts -> reading true (set_in x (set_queue (x_in x) s q)) pts.
Proof. intros H. exact H. Qed.

Lemma received_reads now fuel : forall k x pts fs, reading true x pts -> stream x pts = concat (map hm_marshal fs) -> Forall wire_ok fs ->
  (togo x pts + 2 * List.length fs < fuel)%nat ->
  exists k', (k' <= k)%nat /\ (k <= k' + (togo x pts + 2 * List.length fs))%nat /\ received fuel k now x = qreads k' (in_state x) fs.
Proof.
  induction k as [|k IH]; intros x pts fs Hr Hst Hw Hfu; [exists 0%nat; split; [lia|split; [lia|reflexivity]]|].
  cbn [received]. unfold readMessage, checkMessageAvailable, in_queue. 
  pose (s := in_state x). change (hl_msgSeq (x_in x)) with (fst s). change (hl_queued (x_in x)) with (snd s).
  destruct (q_check (fst s) (snd s)) as [s1 r1] eqn:Eq. cbn [fst snd]. cbn [sbind].
  assert (Hx1 : forall r, r1 = r -> match r with Ok (Some _) | Err _ => True | _ => False end ->
     exists k', (k' <= k)%nat /\ (k <= k' + (togo x pts + 2 * List.length fs))%nat /\
       received fuel k now (set_in x (set_queue (x_in x) (fst s1) (snd s1))) = qreads k' s1 fs).
  { intros r Er Hc. destruct (IH (set_in x (set_queue (x_in x) (fst s1) (snd s1))) pts fs) as (k' & A & B & D); auto.
    exists k'. split; [exact A|]. split; [exact B|]. rewrite D. unfold in_state. cbn [x_in set_in set_queue hl_msgSeq hl_queued].
    now rewrite <- surjective_pairing. }
  destruct r1 as [[m|]|e| |].
  - destruct (Hx1 _ eq_refl I) as (k' & A & B & D). exists (S k'). split; [lia|]. split; [lia|]. cbn [qreads]. fold s. rewrite Eq. now rewrite D.
  - pose proof (q_check_none _ _ _ Eq) as ->. cbn [fst snd].
    assert (Es : set_in x (set_queue (x_in x) (fst s) (snd s)) = x) by (subst s; destruct x as [[] ? ? ? ? ?]; reflexivity).
    rewrite Es. destruct fs as [|f fs].
    + destruct (readFrame_stuck true fuel now x pts Hr) as (x' & r & pts' & E & Hr' & (_ & K1 & K2) & Hst' & Hcase).
      { rewrite Hst. reflexivity. }
      rewrite E.
      assert (Hkeep : in_state x' = s) by (unfold s, in_state; congruence).
      exists (S k). split; [lia|]. split; [lia|].
      assert (Eqr : forall n, qreads n s [] = []).
      { intros [|n]; [reflexivity|]. cbn [qreads]. now rewrite Eq. }
      fold s. rewrite Eqr. destruct Hcase as [->| ->]; cbn [sbind]; [|reflexivity].
      change (is_wb WouldBlock) with true. cbv iota.
      (* the rest of the reads *)
      clear - Hr' Hst' Hst Hkeep Eq. revert x' pts' Hr' Hst' Hkeep. induction k as [|k IHk]; intros x' pts' Hr' Hst' Hkeep; [reflexivity|].
      cbn [received]. unfold readMessage, checkMessageAvailable, in_queue.
      change (hl_msgSeq (x_in x')) with (fst (in_state x')). change (hl_queued (x_in x')) with (snd (in_state x')). rewrite Hkeep, Eq. cbn [fst snd sbind].
      assert (Es : set_in x' (set_queue (x_in x') (fst s) (snd s)) = x') by (rewrite <- Hkeep; destruct x' as [[] ? ? ? ? ?]; reflexivity).
      rewrite Es.
      destruct (readFrame_stuck true fuel now x' pts' Hr') as (x2 & r & pts2 & E & Hr2 & (_ & K1 & K2) & Hst2 & Hcase).
      { rewrite Hst', Hst. reflexivity. }
      rewrite E. destruct Hcase as [->| ->]; cbn [sbind]; [|reflexivity]. change (is_wb WouldBlock) with true. cbv iota.
      apply (IHk x2 pts2); auto; [congruence|]. rewrite <- Hkeep. unfold in_state. congruence.
    + inversion Hw as [|? ? Hf Hw']; subst. cbn [map concat] in Hst. cbn [List.length] in *.
      pose proof (dtls_wire_frame f (concat (map hm_marshal fs)) Hf) as Hff. rewrite <- Hst in Hff.
      destruct (readFrame_spec true fuel now x pts _ _ Hr ltac:(lia) Hff) as (x' & r & pts' & E & Hr' & (_ & K1 & K2) & Hcase). rewrite E.
      assert (Hkeep : in_state x' = s) by (unfold s, in_state; congruence).
      destruct Hcase as [(-> & Hst' & Hto)|(-> & Hst' & Hto)]; cbn [sbind].
      * pose proof Hr' as (Hd & _). rewrite Hd, message_of_wire by auto.
        assert (Hnf : exists x2, newFragmentReceived now x' f = (x2, snd (q_receive (fst s) (snd s) f)) /\ x_in x2 = set_queue (x_in x') (fst (fst (q_receive (fst s) (snd s) f))) (snd (fst (q_receive (fst s) (snd s) f)))).
        { unfold newFragmentReceived. rewrite <- Hkeep. cbn [in_state fst snd].
          destruct (N.ltb_spec (hm_seq f) (hl_msgSeq (x_in x'))) as [Hlt|Hge].
          - exists x'. unfold q_receive. destruct (N.ltb_spec (hm_seq f) (hl_msgSeq (x_in x'))); [|lia]. cbn [fst snd].
            split; [reflexivity|]. now destruct (x_in x').
          - unfold in_queue.
            assert (Ein : x_in (receivedHandshakeMessage now x') = x_in x').
            { unfold receivedHandshakeMessage. destruct (negb _); [reflexivity|]. destruct (x_waiting x'); destruct (getTimer _ _); reflexivity. }
            rewrite Ein. eexists. split; [reflexivity|]. cbn [x_in set_in]. reflexivity. }
        destruct Hnf as (x2 & -> & Hin2).
        assert (Hr2 : reading true x2 pts') by (unfold reading in *; rewrite Hin2; exact Hr').
        assert (Ht2 : togo x2 pts' = togo x' pts') by (unfold togo, inputs; rewrite Hin2; reflexivity).
        assert (Hs2 : stream x2 pts' = concat (map hm_marshal fs)) by (unfold stream; rewrite Hin2; exact Hst').
        destruct (IH x2 pts' fs Hr2 Hs2 Hw') as (k' & A & B & D); [lia|].
        assert (Hq2 : in_state x2 = fst (q_receive (fst s) (snd s) f)) by (unfold in_state; rewrite Hin2; cbn [set_queue hl_msgSeq hl_queued]; now rewrite <- surjective_pairing).
        rewrite Hq2 in D. exists (S k'). split; [lia|]. split; [lia|]. cbn [qreads]. fold s. rewrite Eq. cbn [fst snd].
        destruct (q_receive (fst s) (snd s) f) as [s2 [[m|]|e| |]] eqn:Er; cbn [fst snd] in *; rewrite ?D; try reflexivity.
        apply q_receive_err in Er. now rewrite Er.
      * change (is_wb WouldBlock) with true. cbv iota.
        destruct (IH x' pts' (f :: fs) Hr') as (k' & A & B & D); auto; [now rewrite Hst', Hst|cbn [List.length]; lia|].
        cbn [List.length] in B. exists k'. split; [lia|]. split; [lia|]. now rewrite D, Hkeep.
  - rewrite (q_check_err _ _ _ _ Eq). destruct (Hx1 _ eq_refl I) as (k' & A & B & D). exists (S k'). split; [lia|]. split; [lia|]. cbn [qreads]. fold s. rewrite Eq. now rewrite D.
  - exists (S k). split; [lia|]. split; [lia|]. cbn [qreads]. fold s. now rewrite Eq.
  - exists (S k). split; [lia|]. split; [lia|]. cbn [qreads]. fold s. now rewrite Eq.
Qed.

Lemma reader_reads x seq fs now : dtls_reader x seq fs ->
  exists F, forall fuel k, (F <= fuel)%nat -> exists k', (k' <= k)%nat /\ (k <= k' + F)%nat /\ received fuel k now x = qreads k' (seq, []) fs.
Proof.
  intros (H1 & H2 & H3 & H4 & H5 & core & conn & data & pts & C1 & C2 & C3 & C4 & C5 & C6).
  destruct (segmentation_data conn data C3) as [S1 S2].
  assert (Hr : reading true x pts).
  { unfold reading. rewrite H1, H4, C1. cbn [fresh l_core]. split; [reflexivity|]. split.
    - split; [reflexivity|]. split; [apply fr_ok_new, recordHeaderLen_pos|exact S1].
    - split; [apply fr_ok_new, handshakeHeaderLen_pos|]. split; [exact C2|]. split; [|exact C5].
      unfold rl_data. cbn [fresh l_frame l_in]. rewrite S2. exact C4. }
  exists (S (togo x pts + 2 * List.length fs))%nat. intros fuel k Hf.
  destruct (received_reads now fuel k x pts fs Hr) as (k' & A & B & D); auto; try lia.
  - unfold stream. rewrite H4. exact C6.
  - exists k'. split; [exact A|]. split; [lia|]. rewrite D. unfold in_state. now rewrite H2, H3.
Qed.

(** ** Order *)

Lemma q_check_seq s q s' r : q_check s q = (s', r) ->
  match r with Ok (Some m) => hm_seq m = s /\ fst s' = s + 1 | _ => s' = (s, q) end.
Proof.
  unfold q_check. destruct q as [|m q]; [now intros [= <- <-]|]. destruct (N.eqb_spec (hm_seq m) s) as [<-|]; cbn [negb]; [|now intros [= <- <-]].
  destruct (whole m); [now intros [= <- <-]|].
  destruct (assemble _ _ _ _ _) as [[b|]|e'| |]; intros [= <- <-]; auto.
Qed.
Lemma q_receive_seq s q m s' r : q_receive s q m = (s', r) ->
  match r with Ok (Some m) => hm_seq m = s /\ fst s' = s + 1 | _ => fst s' = s end.
Proof.
  unfold q_receive. destruct (_ <? _); [now intros [= <- <-]|]. destruct (N.eqb_spec (hm_seq m) s) as [<-|]; cbn [andb].
  - destruct (whole m); [now intros [= <- <-]|]. intros H. apply q_check_seq in H. destruct r as [[]| | |]; subst; auto.
  - intros H. apply q_check_seq in H. destruct r as [[]| | |]; subst; auto.
Qed.

(** Writing leaves the reading side alone. *)
Lemma writeFragment_in x m a b : x_in (fst (writeFragment x m a b)) = x_in x.
Proof.
  unfold writeFragment. destruct (_ <=? _)%nat; [reflexivity|]. cbv zeta. destruct (fragmentAcked _ _ _ _); [reflexivity|].
  destruct (hl_datagram (x_out x)); [destruct (hm_cipher m); [|reflexivity]; destruct (writeRecordWithPadding _ _ _ _)|destruct (writeRecord _ _)]; reflexivity.
Qed.
Lemma writeMessage_loop_in fuel : forall x m a b, x_in (fst (writeMessage_loop fuel x m a b)) = x_in x.
Proof.
  induction fuel as [|fuel IH]; intros; [reflexivity|]. cbn [writeMessage_loop].
  pose proof (writeFragment_in x m a (hl_max (x_out x))) as E. destruct (writeFragment x m a _) as [x1 [[w st]|e| |]]; cbn [sbind fst] in *; auto.
  destruct (_ <=? _)%nat; [exact E|]. now rewrite IH.
Qed.
Lemma writeMessages_in ms : forall x, x_in (fst (writeMessages x ms)) = x_in x.
Proof.
  induction ms as [|m ms IH]; intros x; [reflexivity|]. cbn [writeMessages].
  assert (E : x_in (fst (writeMessage x m)) = x_in x) by (unfold writeMessage; destruct (_ <? _); [reflexivity|apply writeMessage_loop_in]).
  destruct (writeMessage x m) as [x1 [n|e| |]]; cbn [sbind fst] in *; auto.
  specialize (IH x1). destruct (writeMessages x1 ms) as [x2 [n2|e| |]]; cbn [sbind fst] in *; congruence.
Qed.
Lemma sendQueued_in x : x_in (fst (sendQueued x)) = x_in x.
Proof.
  unfold sendQueued. pose proof (writeMessages_in (hl_queued (x_out x)) x) as E. destruct (writeMessages x _) as [x1 r]; cbn [fst] in *.
  destruct (hl_datagram _); auto.
Qed.
Lemma sendAck_in x : x_in (fst (sendAck x)) = x_in x.
Proof.
  unfold sendAck. destruct (marshal _ _); try reflexivity. destruct (writeRecord _ _). reflexivity.
Qed.
Lemma fire_in now c x : x_in (fst (fire now c x)) = x_in x.
Proof.
  destruct c; cbn [fire]; [|apply sendAck_in]. unfold handshakeRetransmit. pose proof (sendQueued_in x) as E.
  destruct (sendQueued x) as [x1 [n|e| |]]; cbn [sbind fst] in *; auto.
Qed.
Lemma checkTimers_in grow now x : x_in (fst (checkTimers grow now x)) = x_in x.
Proof.
  unfold checkTimers, check. generalize (ts_cur (x_timers x)), (List.length (slice (x_timers x))), 0%nat. intros a0 todo.
  revert x. induction todo as [|todo IH]; intros x i; cbn [check_loop]; [reflexivity|].
  destruct (nth i _ None) as [id|]; [|reflexivity]. cbv zeta. destruct (_ <? _); [|reflexivity].
  destruct (reappend _ _ _) as [s|e| |]; try reflexivity. destruct (tm_cb _) as [cb|].
  - pose proof (fire_in now cb (set_timers x (disarm id s))) as E. destruct (fire now cb _) as [x1 [u|e| |]]; cbn [fst] in *; try (rewrite E; reflexivity).
    now rewrite IH, E.
  - now rewrite IH.
Qed.
Lemma processAck_in now x d : x_in (fst (processAck now x d)) = x_in x.
Proof.
  unfold processAck. cbv zeta. destruct (unmarshal _ _ _) as [[v rd]|e| |]; try reflexivity. destruct (negb _); [reflexivity|].
  match goal with |- context [sendQueued ?y] => pose proof (sendQueued_in y) as E; destruct (sendQueued y) as [x1 [n|e| |]] end; cbn [sbind fst] in *; auto.
  destruct (n =? 0)%nat; exact E.
Qed.

Lemma hl_readRecord_state now x : in_state (fst (hl_readRecord now x)) = in_state x /\ hl_datagram (x_in (fst (hl_readRecord now x))) = hl_datagram (x_in x).
Proof.
  unfold hl_readRecord. destruct (readRecordE _ _) as [conn [pt|e| |]]; try (split; reflexivity).
  destruct (negb _); [split; reflexivity|]. destruct (Byte.eqb _ rtAck).
  - destruct (negb _); [split; reflexivity|].
    match goal with |- context [processAck now ?y ?d] => pose proof (processAck_in now y d) as E end.
    unfold in_state. rewrite E. split; reflexivity.
  - destruct (Byte.eqb _ rtAlert); [destruct (p_fragment pt) as [|a [|b l]]; split; reflexivity|].
    destruct (negb _); [destruct (_ || _)|]; split; reflexivity.
Qed.
Lemma readFrame_state fuel : forall now x, in_state (fst (readFrame_loop fuel now x)) = in_state x /\ hl_datagram (x_in (fst (readFrame_loop fuel now x))) = hl_datagram (x_in x).
Proof.
  induction fuel as [|fuel IH]; intros now x; cbn [readFrame_loop]; [split; reflexivity|].
  assert (Hstep : forall x1, in_state x1 = in_state x -> hl_datagram (x_in x1) = hl_datagram (x_in x) ->
     let y := (let h := x_in x1 in
        let '(f, r) := process (handshakeFraming (hl_datagram h)) (hl_frame h) in
        let x2 := set_in x1 (set_frame h f) in
        match r with
        | Err e => if negb (hl_nonblocking (x_in x)) && is_wb e then readFrame_loop fuel now x2 else (x2, Err e)
        | _ => (x2, r)
        end) in in_state (fst y) = in_state x /\ hl_datagram (x_in (fst y)) = hl_datagram (x_in x)).
  { intros x1 H1 H2. cbv zeta. destruct (process _ _) as [f r].
    destruct r as [hb|e| |]; try (split; assumption). destruct (_ && _); [|split; assumption].
    destruct (IH now (set_in x1 (set_frame (x_in x1) f))) as [A B]. split; [rewrite A; exact H1|rewrite B; exact H2]. }
  destruct (_ <? _)%nat; [|apply Hstep; reflexivity].
  destruct (hl_readRecord_state now x) as [A B]. destruct (hl_readRecord now x) as [x1 [u|e| |]]; cbn [fst] in *; auto.
  destruct (_ && _); auto.
Qed.

Lemma readMessage_seq fuel now x x' r : hl_datagram (x_in x) = true -> readMessage fuel now x = (x', r) ->
  hl_datagram (x_in x') = true /\
  match r with Ok (Some m) => hm_seq m = hl_msgSeq (x_in x) /\ hl_msgSeq (x_in x') = hl_msgSeq (x_in x) + 1 | _ => hl_msgSeq (x_in x') = hl_msgSeq (x_in x) end.
Proof.
  intros Hd. unfold readMessage, checkMessageAvailable, in_queue.
  destruct (q_check (hl_msgSeq (x_in x)) (hl_queued (x_in x))) as [s1 r1] eqn:Eq. cbn [fst snd].
  pose proof (q_check_seq _ _ _ _ Eq) as Hq.
  destruct r1 as [[m|]|e| |]; cbn [sbind]; try (intros [= <- <-]; subst; cbn; auto; fail).
  subst s1. cbn [fst snd]. 
  assert (Es : set_in x (set_queue (x_in x) (hl_msgSeq (x_in x)) (hl_queued (x_in x))) = x) by (destruct x as [[] ? ? ? ? ?]; reflexivity).
  rewrite Es. destruct (readFrame_state fuel now x) as [A B]. destruct (readFrame_loop fuel now x) as [x1 [[h b]|e| |]]; cbn [fst sbind] in *;
    try (intros [= <- <-]; split; [congruence|]; unfold in_state in A; congruence).
  rewrite B, Hd. destruct (message_of true h b) as [m|e| |]; try (intros [= <- <-]; split; [congruence|]; unfold in_state in A; congruence).
  assert (A1 : hl_msgSeq (x_in x1) = hl_msgSeq (x_in x)) by (unfold in_state in A; congruence).
  unfold newFragmentReceived. destruct (_ <? _); [intros [= <- <-]; split; congruence|].
  assert (Ein : x_in (receivedHandshakeMessage now x1) = x_in x1).
  { unfold receivedHandshakeMessage. destruct (negb _); [reflexivity|]. destruct (x_waiting x1); destruct (getTimer _ _); reflexivity. }
  unfold in_queue. rewrite Ein. destruct (q_receive _ _ _) as [s2 r2] eqn:Er. apply q_receive_seq in Er. cbn [fst snd].
  intros [= <- <-]. cbn [x_in set_in set_queue hl_datagram hl_msgSeq]. rewrite A1 in Er. split; [congruence|]. destruct r2 as [[m2|]| | |]; auto.
Qed.

Lemma hstep_seq x o x' r : hl_datagram (x_in x) = true -> hstep x o = (x', r) ->
  hl_datagram (x_in x') = true /\
  match r with Ok (Some m) => hm_seq m = hl_msgSeq (x_in x) /\ hl_msgSeq (x_in x') = hl_msgSeq (x_in x) + 1 | _ => hl_msgSeq (x_in x') = hl_msgSeq (x_in x) end.
Proof.
  assert (P : forall (p : hctx * res unit), x_in (fst p) = x_in x -> hl_datagram (x_in x) = true -> (let '(y, q) := p in (y, do _ <- q; Ok None)) = (x', r) ->
     hl_datagram (x_in x') = true /\ match r with Ok (Some m) => hm_seq m = hl_msgSeq (x_in x) /\ hl_msgSeq (x_in x') = hl_msgSeq (x_in x) + 1 | _ => hl_msgSeq (x_in x') = hl_msgSeq (x_in x) end).
  { intros [y q] E D [= <- <-]. cbn [fst] in E. rewrite E. split; [exact D|]. destruct q; reflexivity. }
  intros Hd. destruct o as [fuel now| | |grow now|t b| |e k iv|e k iv|conn]; cbn [hstep].
  - now apply readMessage_seq.
  - intros [= <- <-]. unfold receivedEndOfFlight. rewrite Hd. cbn. auto.
  - apply P; auto. unfold receivedFinalFlight. rewrite Hd. cbn [negb].
    match goal with |- context [sendAck ?y] => pose proof (sendAck_in y) as E; destruct (sendAck y) as [x1 [u|e| |]] end; exact E.
  - apply P; auto. apply checkTimers_in.
  - unfold messageFromBody. cbn [fst snd]. apply P; auto. unfold queueMessage. destruct (hl_datagram (x_out _)); [reflexivity|].
    match goal with |- context [writeMessages ?y ?z] => pose proof (writeMessages_in z y) as E; destruct (writeMessages y z) as [x1 q] end. exact E.
  - pose proof (sendQueued_in x) as E. destruct (sendQueued x) as [x1 q]. intros [= <- <-]. cbn [fst] in E. rewrite E. split; [exact Hd|]. destruct q; reflexivity.
  - intros [= <- <-]. cbn. auto.
  - intros [= <- <-]. cbn. auto.
  - intros [= <- <-]. cbn. auto.
Qed.

Theorem deliveries_in_order ops : forall x, hl_datagram (x_in x) = true ->
  map hm_seq (deliveries x ops) = numbers_from (hl_msgSeq (x_in x)) (List.length (deliveries x ops)).
Proof.
  induction ops as [|o ops IH]; intros x Hd; cbn [deliveries]; [reflexivity|].
  destruct (hstep x o) as [x' r] eqn:E. destruct (hstep_seq _ _ _ _ Hd E) as [Hd' Hr].
  destruct r as [[m|]|e| |]; try reflexivity; try (rewrite IH by auto; congruence).
  destruct Hr as [Hm Hs]. cbn [map List.length numbers_from]. rewrite IH by auto. now rewrite Hm, Hs.
Qed.

(** ** Reassembly *)

Lemma part_firstn b a n : firstn (N.to_nat a) b ++ part b a n = firstn (N.to_nat (a + n)) b.
Proof.
  unfold part. rewrite N2Nat.inj_add. generalize (N.to_nat a), (N.to_nat n). clear. intros a n.
  revert b; induction a as [|a IH]; intros b; [reflexivity|]. destruct b; cbn [firstn skipn app Nat.add]; [now rewrite firstn_nil|]. f_equal. apply IH.
Qed.
Lemma copy_at_length buf off body : (off <= List.length buf)%nat -> List.length (copy_at buf off body) = List.length buf.
Proof. intros H. unfold copy_at. rewrite !app_length, !firstn_length, skipn_length. lia. Qed.
(** Copying a genuine part keeps the good prefix. *)
Lemma copy_at_prefix b buf fin off n : List.length buf = List.length b -> firstn (N.to_nat fin) buf = firstn (N.to_nat fin) b ->
  off <= fin -> off + n <= len b -> len (part b off n) = n ->
  firstn (N.to_nat (off + n)) (copy_at buf (N.to_nat off) (part b off n)) = firstn (N.to_nat (off + n)) b.
Proof.
  intros Hl Hp Ho Hb Hn. unfold copy_at.
  assert (Lp : List.length (part b off n) = N.to_nat n) by (unfold len in Hn; lia).
  unfold len in Hb.
  assert (E1 : firstn (List.length buf - N.to_nat off) (part b off n) = part b off n) by (apply firstn_all2; lia).
  rewrite E1, app_assoc, firstn_app_n.
  - rewrite <- part_firstn. f_equal.
    replace (N.to_nat off) with (Nat.min (N.to_nat off) (N.to_nat fin)) by lia. rewrite <- !firstn_firstn. now rewrite Hp.
  - rewrite app_length, firstn_length. lia.
Qed.

(** All fragments used are genuine fragments of the message itself. *)
Lemma assemble_right fs : forall seq b buf fin out,
  Forall (fun f => hm_seq f <= seq -> hm_length f = len b ->
     hm_offset f + len (hm_body f) <= len b /\ hm_body f = part b (hm_offset f) (len (hm_body f))) fs ->
  List.length buf = List.length b -> firstn (N.to_nat fin) buf = firstn (N.to_nat fin) b ->
  assemble seq (len b) fs buf fin = Ok (Some out) -> out = b.
Proof.
  induction fs as [|f fs IH]; intros seq b buf fin out Hf Hl Hp; cbn [assemble]; [discriminate|].
  inversion Hf as [|? ? H1 Hf']; subst.
  destruct (N.ltb_spec seq (hm_seq f)) as [|Hs]; [discriminate|].
  destruct (N.eqb_spec (hm_length f) (len buf)) as [El|]; cbn [negb]; [|discriminate].
  destruct (N.ltb_spec fin (hm_offset f)) as [|Ho]; [discriminate|].
  assert (El' : hm_length f = len b) by (unfold len in *; congruence).
  destruct (H1 Hs El') as [Hb Hbody].
  destruct (N.ltb_spec fin (hm_offset f + len (hm_body f))) as [Hlt|Hge].
  - destruct (N.ltb_spec (len buf) (hm_offset f)) as [|Hin]; [discriminate|]. cbv zeta.
    assert (Hp' : firstn (N.to_nat (hm_offset f + len (hm_body f))) (copy_at buf (N.to_nat (hm_offset f)) (hm_body f)) = firstn (N.to_nat (hm_offset f + len (hm_body f))) b).
    { rewrite Hbody at 2. apply copy_at_prefix with (fin := fin); auto. now rewrite <- Hbody. }
    assert (Hl' : List.length (copy_at buf (N.to_nat (hm_offset f)) (hm_body f)) = List.length b).
    { rewrite copy_at_length; auto. unfold len in Hin. lia. }
    destruct (N.eqb_spec (hm_offset f + len (hm_body f)) (len b)) as [Ef|].
    + intros [= <-]. rewrite Ef in Hp'. unfold len in Hp'. rewrite Nat2N.id in Hp'.
      rewrite firstn_all in Hp'. rewrite <- Hl' in Hp'. now rewrite firstn_all in Hp'.
    + apply (IH seq b); auto.
  - apply (IH seq b); auto.
Qed.

Lemma q_insert_forall (P : hmsg -> Prop) m q : P m -> Forall P q -> Forall P (q_insert m q).
Proof. induction 2 as [|f q Hf Hq IH]; cbn [q_insert]; [auto|]. destruct (_ || _); auto. Qed.
Lemma drop_forall (P : hmsg -> Prop) s q : Forall P q -> Forall P (drop_delivered s q).
Proof. induction 1 as [|f q Hf Hq IH]; cbn [drop_delivered]; [auto|]. destruct q; [auto|]. destruct (_ <? _); auto. Qed.
Lemma q_check_forall (P : hmsg -> Prop) s q s' r : Forall P q -> q_check s q = (s', r) -> Forall P (snd s').
Proof.
  intros H. unfold q_check. destruct q as [|m q]; [now intros [= <- <-]|]. destruct (negb _); [now intros [= <- <-]|].
  destruct (whole m); [intros [= <- <-]; now apply (drop_forall P (hm_seq m) (m :: q))|].
  destruct (assemble _ _ _ _ _) as [[b|]|e'| |]; intros [= <- <-]; auto; try exact H. now apply (drop_forall P (hm_seq m) (m :: q)).
Qed.
Lemma q_receive_forall (P : hmsg -> Prop) s q m s' r : P m -> Forall P q -> q_receive s q m = (s', r) -> Forall P (snd s').
Proof.
  intros Hm H. unfold q_receive. destruct (_ <? _); [now intros [= <- <-]|]. destruct (_ && _); [intros [= <- <-]; now apply drop_forall|].
  apply q_check_forall. now apply q_insert_forall.
Qed.

Lemma whole_genuine ms m : genuine ms m -> whole m = true -> as_sent ms m.
Proof.
  intros (b & H1 & H2 & H3 & H4) Hw. unfold whole in Hw. apply andb_prop in Hw. destruct Hw as [W1 W2].
  apply N.eqb_eq in W1, W2. unfold as_sent. rewrite H1. do 2 f_equal. rewrite H4, W1. unfold part. rewrite <- W2, H2. unfold len. rewrite Nat2N.id.
  cbn [N.to_nat skipn]. now rewrite firstn_all.
Qed.
Lemma q_check_right ms s q s' m : Forall (genuine ms) q -> length_unique ms s -> q_check s q = (s', Ok (Some m)) -> as_sent ms m.
Proof.
  intros Hq Hu. unfold q_check. destruct q as [|f q]; [discriminate|]. destruct (N.eqb_spec (hm_seq f) s) as [Es|]; cbn [negb]; [|discriminate].
  pose proof (Forall_inv Hq) as Hf. destruct (whole f) eqn:Ew; [intros [= <- <-]; now apply whole_genuine|].
  destruct (assemble (hm_seq f) (hm_length f) (f :: q) _ _) as [[out|]|e'| |] eqn:Ea; try discriminate. intros [= <- <-].
  unfold as_sent. cbn [hm_seq hm_type hm_body]. destruct Hf as (b & H1 & H2 & H3 & H4). rewrite H1. do 2 f_equal. symmetry.
  rewrite H2 in Ea. rewrite Es in Ea.
  apply (assemble_right (f :: q) s b) in Ea; [exact Ea| |unfold len; rewrite repeat_length; lia|reflexivity].
  eapply Forall_impl; [|exact Hq]. intros g (b' & G1 & G2 & G3 & G4) Hs Hl.
  assert (Eb : b' = b); [|subst b'; auto].
  destruct (N.eq_dec (hm_seq g) s) as [Eg|Ne].
  - rewrite Eg, <- Es, H1 in G1. congruence.
  - exfalso. rewrite Es in H1. apply (Hu (hm_seq g) _ _ _ _ ltac:(lia) H1 G1). congruence.
Qed.
Lemma q_receive_right ms s q f s' m : genuine ms f -> Forall (genuine ms) q -> length_unique ms s -> q_receive s q f = (s', Ok (Some m)) -> as_sent ms m.
Proof.
  intros Hf Hq Hu. unfold q_receive. destruct (_ <? _); [discriminate|]. destruct (_ && _) eqn:Ew.
  - intros [= <- <-]. apply andb_prop in Ew. now apply whole_genuine.
  - apply q_check_right; auto. now apply q_insert_forall.
Qed.

Lemma qreads_right ms k : forall s fs m, Forall (genuine ms) (snd s) -> Forall (genuine ms) fs -> In (Ok m) (qreads k s fs) ->
  length_unique ms (hm_seq m) -> as_sent ms m.
Proof.
  induction k as [|k IH]; intros s fs m Hq Hf Hin Hu; cbn [qreads] in Hin; [destruct Hin|].
  destruct (q_check (fst s) (snd s)) as [s1 [[m1|]|e| |]] eqn:Eq;
    pose proof (q_check_forall _ _ _ _ _ Hq Eq) as Hq1.
  - destruct Hin as [[= <-]|Hin]; [|eapply (IH _ _ m); [| |exact Hin|exact Hu]; assumption].
    apply (q_check_right ms (fst s) (snd s) s1 m1); auto. apply q_check_seq in Eq. destruct Eq as [<- _]. exact Hu.
  - destruct fs as [|f fs]; [destruct Hin|]. inversion Hf as [|? ? Hf1 Hf2]; subst.
    destruct (q_receive (fst s1) (snd s1) f) as [s2 [[m2|]|e| |]] eqn:Er;
      pose proof (q_receive_forall _ _ _ _ _ _ Hf1 Hq1 Er) as Hq2.
    + destruct Hin as [[= <-]|Hin]; [|eapply (IH _ _ m); [| |exact Hin|exact Hu]; assumption].
      apply (q_receive_right ms (fst s1) (snd s1) f s2 m2); auto. apply q_receive_seq in Er. destruct Er as [<- _]. exact Hu.
    + eapply (IH _ _ m); [| |exact Hin|exact Hu]; assumption.
    + destruct Hin as [Hin|Hin]; [discriminate|]. eapply (IH _ _ m); [| |exact Hin|exact Hu]; assumption.
    + destruct Hin as [Hin|[]]. discriminate.
    + destruct Hin.
  - destruct Hin as [Hin|Hin]; [discriminate|]. eapply (IH _ _ m); [| |exact Hin|exact Hu]; assumption.
  - destruct Hin as [Hin|[]]. discriminate.
  - destruct Hin.
Qed.

Theorem reassembly_right ms x seq fs now : dtls_reader x seq fs -> Forall (genuine ms) fs ->
  exists F, forall fuel k m, (F <= fuel)%nat -> In (Ok m) (received fuel k now x) -> length_unique ms (hm_seq m) -> as_sent ms m.
Proof.
  intros Hx Hf. destruct (reader_reads x seq fs now Hx) as (F & HF). exists F. intros fuel k m Hfu Hin Hu.
  destruct (HF fuel k Hfu) as (k' & _ & _ & E). rewrite E in Hin. eapply qreads_right; eauto. constructor.
Qed.

(** ** No panics on sane fragments *)

Lemma assemble_no_panic fs : forall seq n buf fin, Forall sane fs -> fin <= len buf -> assemble seq n fs buf fin <> Panic.
Proof.
  induction fs as [|f fs IH]; intros seq n buf fin Hf Hfin; cbn [assemble]; [discriminate|]. inversion Hf as [|? ? H1 Hf']; subst. unfold sane in H1.
  destruct (_ <? _); [discriminate|]. destruct (N.eqb_spec (hm_length f) (len buf)) as [El|]; cbn [negb]; [|discriminate].
  destruct (N.ltb_spec fin (hm_offset f)); [discriminate|]. destruct (_ <? _); [|now apply IH].
  destruct (N.ltb_spec (len buf) (hm_offset f)) as [|Hin]; [lia|]. cbv zeta. destruct (_ =? _); [discriminate|]. apply IH; auto.
  unfold len in *. rewrite copy_at_length by lia. lia.
Qed.
Lemma q_check_no_panic s q s' : Forall sane q -> q_check s q <> (s', Panic).
Proof.
  intros H. unfold q_check. destruct q as [|m q]; [discriminate|]. destruct (negb _); [discriminate|]. destruct (whole m); [discriminate|].
  destruct (assemble (hm_seq m) (hm_length m) (m :: q) (repeat x00 (N.to_nat (hm_length m))) 0) as [[b|]|e'| |] eqn:E; try discriminate.
  exfalso. revert E. apply assemble_no_panic; auto. lia.
Qed.
Lemma qreads_no_panic k : forall s fs, Forall sane (snd s) -> Forall sane fs -> ~ In Panic (qreads k s fs).
Proof.
  induction k as [|k IH]; intros s fs Hq Hf Hin; cbn [qreads] in Hin; [destruct Hin|].
  destruct (q_check (fst s) (snd s)) as [s1 r1] eqn:Eq; pose proof (q_check_forall _ _ _ _ _ Hq Eq) as Hq1.
  destruct r1 as [[m1|]|e| |].
  - destruct Hin as [Hin|Hin]; [discriminate|]. eapply IH; [| |exact Hin]; assumption.
  - destruct fs as [|f fs]; [destruct Hin|]. inversion Hf as [|? ? Hf1 Hf2]; subst.
    destruct (q_receive (fst s1) (snd s1) f) as [s2 r2] eqn:Er; pose proof (q_receive_forall _ _ _ _ _ _ Hf1 Hq1 Er) as Hq2.
    destruct r2 as [[m2|]|e| |].
    + destruct Hin as [Hin|Hin]; [discriminate|]. eapply IH; [| |exact Hin]; assumption.
    + eapply IH; [| |exact Hin]; assumption.
    + destruct Hin as [Hin|Hin]; [discriminate|]. eapply IH; [| |exact Hin]; assumption.
    + revert Er. unfold q_receive. destruct (_ <? _); [discriminate|]. destruct (_ && _); [discriminate|]. apply q_check_no_panic. now apply q_insert_forall.
    + destruct Hin.
  - destruct Hin as [Hin|Hin]; [discriminate|]. eapply IH; [| |exact Hin]; assumption.
  - revert Eq. now apply q_check_no_panic.
  - destruct Hin.
Qed.
Theorem sane_no_panic x seq fs now : dtls_reader x seq fs -> Forall sane fs ->
  exists F, forall fuel k, (F <= fuel)%nat -> ~ In Panic (received fuel k now x).
Proof.
  intros Hx Hf. destruct (reader_reads x seq fs now Hx) as (F & HF). exists F. intros fuel k Hfu.
  destruct (HF fuel k Hfu) as (k' & _ & _ & E). rewrite E. apply qreads_no_panic; auto. constructor.
Qed.

(** ** Progress: messages in one piece *)

Definition by_seq : list hmsg -> Prop := StronglySorted (fun a b => hm_seq a <= hm_seq b).

Lemma q_insert_in m q f : In f (q_insert m q) <-> f = m \/ In f q.
Proof.
  induction q as [|g q IH]; cbn [q_insert]; [simpl; intuition auto|]. destruct (_ || _); simpl; [intuition auto|]. rewrite IH. intuition auto.
Qed.
Lemma q_insert_sorted m q : Forall unfragmented q -> unfragmented m -> by_seq q -> by_seq (q_insert m q).
Proof.
  intros Hu [Hm _] Hs. induction Hs as [|f q Hs IH Hf]; cbn [q_insert]; [repeat constructor|].
  inversion Hu as [|? ? [Hu1 _] Hu2]; subst. rewrite Hm, Hu1. change (0 <? 0) with false. rewrite orb_false_r.
  destruct (N.ltb_spec (hm_seq m) (hm_seq f)) as [Hlt|Hge].
  - constructor; [constructor; auto|]. constructor; [lia|]. eapply Forall_impl; [|exact Hf]. cbn beta. intros; lia.
  - constructor; [now apply IH|]. apply Forall_forall. intros g Hg. apply q_insert_in in Hg. destruct Hg as [->|Hg]; [lia|].
    rewrite Forall_forall in Hf. now apply Hf.
Qed.
Lemma drop_in s q f : In f (drop_delivered s q) -> In f q.
Proof.
  induction q as [|m q IH]; cbn [drop_delivered]; [auto|]. destruct q as [|m2 q]; [auto|]. destruct (_ <? _); [auto|]. intros H. right. now apply IH.
Qed.
Lemma drop_keeps s q f : In f q -> s < hm_seq f -> In f (drop_delivered s q).
Proof.
  induction q as [|m q IH]; cbn [drop_delivered]; [auto|]. intros Hin Hlt. destruct q as [|m2 q]; [auto|].
  destruct (N.ltb_spec s (hm_seq m)); [auto|]. destruct Hin as [->|Hin]; [lia|]. now apply IH.
Qed.
Lemma drop_sorted s q : by_seq q -> by_seq (drop_delivered s q).
Proof.
  induction 1 as [|m q Hs IH Hf]; cbn [drop_delivered]; [constructor|]. destruct q as [|m2 q]; [constructor; auto|]. destruct (_ <? _); [constructor; auto|auto].
Qed.
Lemma drop_above s q : by_seq q -> (exists f, In f q /\ s < hm_seq f) -> Forall (fun f => s < hm_seq f) (drop_delivered s q).
Proof.
  induction 1 as [|m q Hs IH Hf]; cbn [drop_delivered]; [constructor|]. intros (f & Hin & Hlt).
  destruct q as [|m2 q].
  - destruct Hin as [->|[]]. constructor; auto.
  - destruct (N.ltb_spec s (hm_seq m)).
    + constructor; [auto|]. eapply Forall_impl; [|exact Hf]. cbn beta. intros; lia.
    + apply IH. exists f. destruct Hin as [->|Hin]; [lia|]. auto.
Qed.

(** The queue when only whole messages [A] have arrived and [e] is expected. *)
Definition q_inv (A : list hmsg) (e : N) (q : list hmsg) : Prop :=
  by_seq q /\ (forall f, In f q -> In f A /\ unfragmented f) /\ (forall f, In f A -> e <= hm_seq f -> In f q) /\
  ((exists f, In f q /\ hm_seq f = e) -> Forall (fun f => e <= hm_seq f) q).

Lemma unfragmented_whole f : unfragmented f -> whole f = true.
Proof. intros [H1 H2]. unfold whole. rewrite H1, H2, !N.eqb_refl. reflexivity. Qed.

Lemma q_inv_deliver A e q : q_inv A e q -> q_inv A (e + 1) (drop_delivered e q).
Proof.
  intros (I1 & I2 & I3 & I4). split; [now apply drop_sorted|]. split; [intros f Hf; apply drop_in in Hf; auto|].
  split; [intros f Hf Hge; apply drop_keeps; [apply I3; [auto|lia]|lia]|].
  intros (f & Hf & Hs). apply drop_in in Hf. eapply Forall_impl; [|apply drop_above; [exact I1|exists f; split; [auto|lia]]]. cbn beta. intros; lia.
Qed.

Lemma q_check_inv A e q : q_inv A e q ->
  (exists m, q_check e q = ((e + 1, drop_delivered e q), Ok (Some m)) /\ In m q /\ hm_seq m = e) \/
  (q_check e q = ((e, q), Ok None) /\ forall f, In f q -> hm_seq f <> e).
Proof.
  intros (I1 & I2 & I3 & I4). unfold q_check. destruct q as [|m q].
  - right. split; [reflexivity|]. intros f [].
  - destruct (N.eqb_spec (hm_seq m) e) as [He|Hne]; cbn [negb].
    + rewrite (unfragmented_whole m) by (apply I2; left; reflexivity). left. exists m. rewrite He. split; [reflexivity|]. split; [left; reflexivity|auto].
    + right. split; [reflexivity|]. intros f Hf Hs. assert (Hall : Forall (fun f => e <= hm_seq f) (m :: q)) by (apply I4; eauto).
      inversion Hall as [|? ? H1 H2]; subst. inversion I1 as [|? ? H3 H4]; subst. destruct Hf as [->|Hf]; [congruence|].
      rewrite Forall_forall in H4. specialize (H4 f Hf). lia.
Qed.

Definition waiting_for (e : N) (q : list hmsg) : nat := List.length (filter (fun f => e <=? hm_seq f) q).
Lemma waiting_insert e m q : (waiting_for e (q_insert m q) <= S (waiting_for e q))%nat.
Proof.
  unfold waiting_for. induction q as [|f q IH]; cbn [q_insert filter]; [destruct (_ <=? _); simpl; lia|].
  destruct (_ || _); cbn [filter].
  - destruct (e <=? hm_seq m); destruct (e <=? hm_seq f); simpl; lia.
  - destruct (e <=? hm_seq f); simpl List.length; lia.
Qed.
Lemma waiting_mono e l : (waiting_for (e + 1) l <= waiting_for e l)%nat.
Proof.
  unfold waiting_for. induction l as [|f l IH]; cbn [filter]; [auto|].
  destruct (N.leb_spec (e + 1) (hm_seq f)); destruct (N.leb_spec e (hm_seq f)); simpl; lia.
Qed.
Lemma waiting_drop' e e' l : (waiting_for e' (drop_delivered e l) <= waiting_for e' l)%nat.
Proof.
  unfold waiting_for. induction l as [|f l IH]; cbn [drop_delivered]; [auto|]. destruct l as [|f2 l]; [auto|]. destruct (_ <? _); [auto|].
  cbn [filter] in *. destruct (e' <=? hm_seq f); simpl List.length in *; lia.
Qed.
Lemma waiting_drop e q : (waiting_for (e + 1) (drop_delivered e q) <= waiting_for e q)%nat.
Proof. eapply Nat.le_trans; [apply waiting_drop'|apply waiting_mono]. Qed.
Lemma waiting_check e q m : In m q -> hm_seq m = e -> (waiting_for (e + 1) (drop_delivered e q) < waiting_for e q)%nat.
Proof.
  intros Hin He. eapply Nat.le_lt_trans; [apply waiting_drop'|].
  revert Hin. induction q as [|f l IH]; intros Hl; [destruct Hl|]. unfold waiting_for in *. cbn [filter]. destruct Hl as [->|Hl].
  - pose proof (waiting_mono e l) as G. unfold waiting_for in G. rewrite He, N.leb_refl. destruct (N.leb_spec (e + 1) e); simpl; lia.
  - specialize (IH Hl). destruct (N.leb_spec (e + 1) (hm_seq f)); destruct (N.leb_spec e (hm_seq f)); simpl; lia.
Qed.

Lemma qreads_whole n : forall A e q fs, q_inv A e q -> Forall unfragmented fs ->
  (2 * List.length fs + waiting_for e q < n)%nat ->
  exists out, (forall k, (n <= k)%nat -> qreads k (e, q) fs = map Ok out) /\ map hm_seq out = numbers_from e (List.length out) /\
    Forall (fun m => In m (A ++ fs)) out /\ ~ Exists (fun f => hm_seq f = e + N.of_nat (List.length out)) (A ++ fs).
Proof.
  induction n as [|n IH]; intros A e q fs HI Hw Hk; [lia|].
  assert (HS : forall (R : list (res hmsg)) g, (forall k, (n <= k)%nat -> g (S k) = R) -> forall k, (S n <= k)%nat -> g k = R).
  { intros R g H [|k] Hk'; [lia|]. apply H. lia. }
  destruct (q_check_inv A e q HI) as [(m & E & Hin & Hs)|(E & Hno)].
  - pose proof (waiting_check e q m Hin Hs).
    destruct (IH A (e + 1) (drop_delivered e q) fs (q_inv_deliver _ _ _ HI) Hw ltac:(lia)) as (out & O1 & O2 & O3 & O4).
    exists (m :: out). cbn [map List.length numbers_from]. rewrite O2, Hs. split; [apply HS; intros k Hk'; cbn [qreads fst snd]; rewrite E; cbn [fst snd]; now rewrite O1 by lia|]. split; [reflexivity|]. split.
    + constructor; [|exact O3]. apply in_or_app. left. now apply HI.
    + replace (e + N.of_nat (S (List.length out))) with (e + 1 + N.of_nat (List.length out)) by lia. exact O4.
  - destruct fs as [|f fs].
    + exists []. cbn. split; [apply HS; intros k Hk'; cbn [qreads fst snd]; now rewrite E|]. split; [reflexivity|]. split; [constructor|]. rewrite app_nil_r, N.add_0_r.
      rewrite Exists_exists. intros (f & Hf & Hs). apply (Hno f); auto. apply HI; auto. lia.
    + inversion Hw as [|? ? Hf Hw']; subst. cbn [List.length] in Hk.
      assert (Hperm : forall P : hmsg -> Prop, Exists P ((A ++ [f]) ++ fs) <-> Exists P (A ++ f :: fs)) by (intros P; now rewrite <- app_assoc).
      assert (Hin' : forall m, In m ((A ++ [f]) ++ fs) <-> In m (A ++ f :: fs)) by (intros m; now rewrite <- app_assoc).
      assert (Er : q_receive e q f = q_receive e q f) by reflexivity. unfold q_receive in Er at 2. destruct (N.ltb_spec (hm_seq f) e) as [Hlt|Hge].
      * assert (HI' : q_inv (A ++ [f]) e q).
        { destruct HI as (I1 & I2 & I3 & I4). split; [auto|]. split; [intros g Hg; split; [apply in_or_app; left|]; now apply I2|].
          split; [|auto]. intros g Hg Hge. apply in_app_or in Hg. destruct Hg as [Hg|[->|[]]]; [auto|lia]. }
        destruct (IH _ _ _ fs HI' Hw' ltac:(lia)) as (out & O1 & O2 & O3 & O4). exists out.
        split; [apply HS; intros k Hk'; cbn [qreads fst snd]; rewrite E; cbn [fst snd]; rewrite Er; now apply O1|]. split; [exact O2|]. split; [|now rewrite <- Hperm]. eapply Forall_impl; [|exact O3]. intros a Ha. now apply Hin'.
      * destruct (N.eqb_spec (hm_seq f) e) as [He|Hne]; cbn [andb] in Er.
        -- rewrite (unfragmented_whole f Hf) in Er. rewrite He in Er.
           assert (HI' : q_inv (A ++ [f]) (e + 1) (drop_delivered e q)).
           { apply q_inv_deliver in HI. destruct HI as (I1 & I2 & I3 & I4). split; [auto|]. split; [intros g Hg; split; [apply in_or_app; left|]; now apply I2|].
             split; [|auto]. intros g Hg Hge'. apply in_app_or in Hg. destruct Hg as [Hg|[->|[]]]; [auto|lia]. }
           pose proof (waiting_drop e q).
           destruct (IH _ _ _ fs HI' Hw' ltac:(lia)) as (out & O1 & O2 & O3 & O4). exists (f :: out).
           cbn [map List.length numbers_from]. rewrite O2, He. split; [apply HS; intros k Hk'; cbn [qreads fst snd]; rewrite E; cbn [fst snd]; rewrite Er; now rewrite O1|]. split; [reflexivity|]. split.
           ++ constructor; [apply in_or_app; right; left; reflexivity|]. eapply Forall_impl; [|exact O3]. intros a Ha. now apply Hin'.
           ++ replace (e + N.of_nat (S (List.length out))) with (e + 1 + N.of_nat (List.length out)) by lia. now rewrite <- Hperm.
        -- assert (HI' : q_inv (A ++ [f]) e (q_insert f q)).
           { destruct HI as (I1 & I2 & I3 & I4). split; [apply q_insert_sorted; auto; apply Forall_forall; intros g Hg; now apply I2|].
             split; [intros g Hg; apply q_insert_in in Hg; destruct Hg as [->|Hg]; split; auto; try (apply in_or_app; right; left; reflexivity); [apply in_or_app; left|]; now apply I2|].
             split; [intros g Hg Hge'; apply q_insert_in; apply in_app_or in Hg; destruct Hg as [Hg|[->|[]]]; auto|].
             intros (g & Hg & Hs). exfalso. apply q_insert_in in Hg. destruct Hg as [->|Hg]; [auto|]. now apply (Hno g). }
           pose proof (waiting_insert e f q).
           destruct (q_check_inv _ _ _ HI') as [(m & E' & Hin & Hs)|(E' & Hno')].
           { exfalso. apply q_insert_in in Hin. destruct Hin as [->|Hin]; [auto|]. now apply (Hno m). }
           rewrite E' in Er. destruct (IH _ _ _ fs HI' Hw' ltac:(lia)) as (out & O1 & O2 & O3 & O4). exists out.
           split; [apply HS; intros k Hk'; cbn [qreads fst snd]; rewrite E; cbn [fst snd]; rewrite Er; now apply O1|]. split; [exact O2|]. split; [|now rewrite <- Hperm]. eapply Forall_impl; [|exact O3]. intros a Ha. now apply Hin'.
Qed.

Theorem whole_progress x seq fs now : dtls_reader x seq fs -> Forall unfragmented fs ->
  exists F out, (forall fuel k, (F <= fuel)%nat -> (F <= k)%nat -> received fuel k now x = map Ok out) /\
    map hm_seq out = numbers_from seq (List.length out) /\ Forall (fun m => In m fs) out /\
    ~ Exists (fun f => hm_seq f = seq + N.of_nat (List.length out)) fs.
Proof.
  intros Hx Hf. destruct (reader_reads x seq fs now Hx) as (F & HF).
  assert (HI : q_inv [] seq []).
  { split; [constructor|]. split; [intros f []|]. split; [intros f []|]. intros _. constructor. }
  set (K := S (2 * List.length fs)).
  destruct (qreads_whole K [] seq [] fs HI Hf) as (out & O1 & O2 & O3 & O4); [subst K; cbn; lia|].
  exists (F + K)%nat, out. split; [|split; [exact O2|split; [exact O3|exact O4]]].
  intros fuel k Hfu Hk. destruct (HF fuel k ltac:(lia)) as (k' & A & B & ->). apply O1. lia.
Qed.

(** ** Progress: one message in fragments *)

Definition by_offset : list hmsg -> Prop := StronglySorted (fun a b => hm_offset a <= hm_offset b).
(** A fragment of message [e]. *)
Definition piece (e : N) (t : byte) (b : bytes) (f : hmsg) : Prop :=
  hm_seq f = e /\ hm_type f = t /\ hm_length f = len b /\ hm_offset f + len (hm_body f) <= len b /\ hm_body f = part b (hm_offset f) (len (hm_body f)) /\
  hm_datagram f = true /\ hm_cipher f = None.
Definition byte_in (i : N) (f : hmsg) : Prop := hm_offset f <= i < hm_offset f + len (hm_body f).
Lemma N_lt_le_dec (a b : N) : {a < b} + {b <= a}.
Proof. destruct (a <? b) eqn:E; [left; now apply N.ltb_lt|right; now apply N.ltb_ge]. Qed.
Lemma byte_in_dec i f : {byte_in i f} + {~ byte_in i f}.
Proof. unfold byte_in. destruct (N_lt_le_dec i (hm_offset f)); [right; lia|]. destruct (N_lt_le_dec i (hm_offset f + len (hm_body f))); [left|right]; lia. Qed.

Lemma assemble_pieces e t b q : forall buf fin, Forall (piece e t b) q -> by_offset q -> List.length buf = List.length b ->
  firstn (N.to_nat fin) buf = firstn (N.to_nat fin) b -> fin < len b ->
  ((forall i, fin <= i < len b -> Exists (byte_in i) q) -> assemble e (len b) q buf fin = Ok (Some b)) /\
  ((exists i, fin <= i < len b /\ ~ Exists (byte_in i) q) -> assemble e (len b) q buf fin = Ok None).
Proof.
  induction q as [|f q IH]; intros buf fin Hp Hs Hl Hpre Hfin; cbn [assemble].
  { split; [|reflexivity]. intros H. specialize (H fin ltac:(lia)). inversion H. }
  inversion Hp as [|? ? (P1 & P2 & P3 & P4 & P5 & _ & _) Hp']; subst. inversion Hs as [|? ? Hs' Hso]; subst.
  rewrite N.ltb_irrefl. assert (El : len buf = len b) by (unfold len; congruence).
  rewrite P3, El, N.eqb_refl. cbn [negb].
  destruct (N.ltb_spec fin (hm_offset f)) as [Hgap|Ho].
  { split; [|reflexivity]. intros H. specialize (H fin ltac:(lia)). exfalso. apply Exists_exists in H. destruct H as (g & Hg & Hb). unfold byte_in in Hb.
    destruct Hg as [->|Hg]; [lia|]. rewrite Forall_forall in Hso. specialize (Hso g Hg). lia. }
  destruct (N.ltb_spec fin (hm_offset f + len (hm_body f))) as [Hlt|Hge].
  - destruct (N.ltb_spec (len b) (hm_offset f)) as [|_]; [lia|]. cbv zeta.
    assert (Hp2 : firstn (N.to_nat (hm_offset f + len (hm_body f))) (copy_at buf (N.to_nat (hm_offset f)) (hm_body f)) = firstn (N.to_nat (hm_offset f + len (hm_body f))) b).
    { assert (G := copy_at_prefix b buf fin (hm_offset f) (len (hm_body f)) Hl Hpre Ho P4). rewrite <- P5 in G. now apply G. }
    assert (Hl2 : List.length (copy_at buf (N.to_nat (hm_offset f)) (hm_body f)) = List.length b).
    { rewrite copy_at_length; auto. unfold len in *. lia. }
    destruct (N.eqb_spec (hm_offset f + len (hm_body f)) (len b)) as [Ef|Hne].
    + assert (Eb : copy_at buf (N.to_nat (hm_offset f)) (hm_body f) = b).
      { rewrite Ef in Hp2. unfold len in Hp2. rewrite Nat2N.id, firstn_all in Hp2. rewrite <- Hl2 in Hp2. now rewrite firstn_all in Hp2. }
      rewrite Eb. split; [reflexivity|]. intros (i & Hi & Hn). exfalso. apply Hn. left. unfold byte_in. lia.
    + destruct (IH (copy_at buf (N.to_nat (hm_offset f)) (hm_body f)) (hm_offset f + len (hm_body f)) Hp' Hs' Hl2 Hp2 ltac:(lia)) as [I1 I2].
      split.
      * intros H. apply I1. intros i Hi. specialize (H i ltac:(lia)). inversion H as [? ? Hb|]; subst; [unfold byte_in in Hb; lia|auto].
      * intros (i & Hi & Hn). apply I2. exists i. split; [|intros Hc; apply Hn; now right]. split; [|lia].
        destruct (N_lt_le_dec i (hm_offset f + len (hm_body f))); [|lia]. exfalso. apply Hn. left. unfold byte_in. lia.
  - destruct (IH buf fin Hp' Hs' Hl Hpre Hfin) as [I1 I2]. split.
    + intros H. apply I1. intros i Hi. specialize (H i Hi). inversion H as [? ? Hb|]; subst; [unfold byte_in in Hb; lia|auto].
    + intros (i & Hi & Hn). apply I2. exists i. split; [exact Hi|]. intros Hc. apply Hn. now right.
Qed.

Lemma q_insert_by_offset e m q : hm_seq m = e -> Forall (fun f => hm_seq f = e) q -> by_offset q -> by_offset (q_insert m q).
Proof.
  intros Hm Hq Hs. induction Hs as [|f q Hs IH Hf]; cbn [q_insert]; [repeat constructor|].
  inversion Hq as [|? ? Hf1 Hq']; subst. rewrite Hf1, N.ltb_irrefl. cbn [orb].
  destruct (N.ltb_spec (hm_offset m) (hm_offset f)) as [Hlt|Hge].
  - constructor; [constructor; auto|]. constructor; [lia|]. eapply Forall_impl; [|exact Hf]. cbn beta. intros; lia.
  - constructor; [now apply IH|]. apply Forall_forall. intros g Hg. apply q_insert_in in Hg. destruct Hg as [->|Hg]; [lia|].
    rewrite Forall_forall in Hf. now apply Hf.
Qed.

Lemma piece_whole e t b f : piece e t b f -> whole f = true -> f = message e (t, b).
Proof.
  intros (P1 & P2 & P3 & P4 & P5 & P6 & P7) Hw. unfold whole in Hw. apply andb_prop in Hw. destruct Hw as [W1 W2]. apply N.eqb_eq in W1, W2.
  assert (Eb : hm_body f = b).
  { rewrite P5, W1, <- W2, P3. unfold part, len. rewrite Nat2N.id. cbn [N.to_nat skipn]. apply firstn_all. }
  destruct f; cbn in *. unfold message. cbn [fst snd]. congruence.
Qed.
Lemma piece_not_whole_pos e t b f : piece e t b f -> whole f = false -> 0 < len b.
Proof.
  intros (P1 & P2 & P3 & P4 & P5 & P6 & P7) Hw. destruct (N.eq_dec (len b) 0) as [E|]; [|lia]. exfalso.
  unfold whole in Hw. rewrite P3 in Hw. replace (hm_offset f) with 0 in Hw by lia. replace (len (hm_body f)) with 0 in Hw by lia. rewrite E in Hw. discriminate.
Qed.

(** Checking a queue that holds pieces of the expected message only. *)
Lemma q_check_pieces e t b q : Forall (piece e t b) q -> Forall (fun f => whole f = false) q -> by_offset q -> q <> [] ->
  ((forall i, i < len b -> Exists (byte_in i) q) -> q_check e q = ((e + 1, drop_delivered e q), Ok (Some (message e (t, b))))) /\
  ((exists i, i < len b /\ ~ Exists (byte_in i) q) -> q_check e q = ((e, q), Ok None)).
Proof.
  intros Hp Hw Hs Hne. unfold q_check. destruct q as [|f q]; [congruence|].
  pose proof (Forall_inv Hp) as Hf. pose proof (Forall_inv Hw) as Hfw. pose proof (piece_not_whole_pos _ _ _ _ Hf Hfw) as Hpos.
  pose proof Hf as (P1 & P2 & P3 & P4 & P5 & P6 & P7). cbn beta in Hfw.
  rewrite Hfw, P1, N.eqb_refl, P3. cbn [negb].
  destruct (assemble_pieces e t b (f :: q) (repeat x00 (N.to_nat (len b))) 0 Hp Hs) as [A1 A2]; auto.
  { rewrite repeat_length. unfold len. lia. }
  split.
  - intros H. rewrite A1; [|intros i Hi; apply H; lia]. rewrite P2, P6, P7. reflexivity.
  - intros (i & Hi & Hn). rewrite A2; [reflexivity|]. exists i. split; [lia|auto].
Qed.

Lemma covered_dec (q : list hmsg) n : (forall i, i < n -> Exists (byte_in i) q) \/ (exists i, i < n /\ ~ Exists (byte_in i) q).
Proof.
  induction n as [|n IH] using N.peano_ind; [left; intros; lia|].
  destruct IH as [IH|(i & Hi & Hn)]; [|right; exists i; split; [lia|auto]].
  destruct (Exists_dec (byte_in n) q (byte_in_dec n)) as [He|Hn].
  - left. intros i Hi. destruct (N.eq_dec i n) as [->|]; [auto|]. apply IH. lia.
  - right. exists n. split; [lia|auto].
Qed.
Lemma Exists_incl (P : hmsg -> Prop) l l' : incl l l' -> Exists P l -> Exists P l'.
Proof. rewrite !Exists_exists. intros H (f & Hf & Hp). exists f. auto. Qed.

(** After the message has been delivered the rest is ignored. *)
Lemma qreads_done k : forall e q fs, Forall (fun f => hm_seq f < e) q -> Forall (fun f => hm_seq f < e) fs -> qreads k (e, q) fs = [].
Proof.
  induction k as [|k IH]; intros e q fs Hq Hf; cbn [qreads fst snd]; [reflexivity|].
  assert (Ec : q_check e q = ((e, q), Ok None)).
  { unfold q_check. destruct q as [|f q]; [reflexivity|]. inversion Hq; subst. destruct (N.eqb_spec (hm_seq f) e); [lia|reflexivity]. }
  rewrite Ec. destruct fs as [|f fs]; [reflexivity|]. inversion Hf as [|? ? Hf1 Hf2]; subst. unfold q_receive. cbn [fst snd].
  destruct (N.ltb_spec (hm_seq f) e); [|lia]. now apply IH.
Qed.

Lemma qreads_pieces e t b fs : forall k A q, Forall (piece e t b) fs -> Forall (piece e t b) q -> Forall (fun f => whole f = false) q -> by_offset q ->
  incl q A -> incl A q -> (exists i, i < len b /\ ~ Exists (byte_in i) A) \/ A = [] -> (List.length fs < k)%nat ->
  (covers (A ++ fs) (len b) -> qreads k (e, q) fs = [Ok (message e (t, b))]) /\ (~ covers (A ++ fs) (len b) -> qreads k (e, q) fs = []).
Proof.
  induction fs as [|f fs IH]; intros [|k] A q Hp Hq Hw Hs I1 I2 Hn Hk; try (simpl in Hk; lia); cbn [qreads fst snd].
  - assert (Ec : q_check e q = ((e, q), Ok None)).
    { destruct q as [|g q]; [reflexivity|]. apply (q_check_pieces e t b (g :: q)); auto; [discriminate|].
      destruct Hn as [(i & Hi & Hn)| ->]; [exists i; split; [auto|]; intros Hc; apply Hn; eapply Exists_incl; eauto|]. exfalso. apply (I1 g). left; reflexivity. }
    rewrite Ec. split; [|reflexivity]. rewrite app_nil_r. intros [C1 C2]. exfalso. destruct Hn as [(i & Hi & Hn)| ->]; [apply Hn; now apply C2|congruence].
  - assert (Ec : q_check e q = ((e, q), Ok None)).
    { destruct q as [|g q]; [reflexivity|]. apply (q_check_pieces e t b (g :: q)); auto; [discriminate|].
      destruct Hn as [(i & Hi & Hn)| ->]; [exists i; split; [auto|]; intros Hc; apply Hn; eapply Exists_incl; eauto|]. exfalso. apply (I1 g). left; reflexivity. }
    rewrite Ec. inversion Hp as [|? ? Hf Hp']; subst. cbn [fst snd].
    assert (Happ : forall P : hmsg -> Prop, Exists P ((A ++ [f]) ++ fs) <-> Exists P (A ++ f :: fs)) by (intros P; now rewrite <- app_assoc).
    assert (Hdone : forall q', Forall (piece e t b) q' -> forall j, qreads j (e + 1, q') fs = []).
    { intros q' Hq' j. apply qreads_done.
      - eapply Forall_impl; [|exact Hq']. intros g (G1 & _). lia.
      - eapply Forall_impl; [|exact Hp']. intros g (G1 & _). lia. }
    pose proof Hf as (P1 & P2 & P3 & P4 & P5 & P6 & P7).
    unfold q_receive. rewrite P1, N.ltb_irrefl, N.eqb_refl. cbn [andb].
    destruct (whole f) eqn:Ew.
    + rewrite Hdone by (now apply drop_forall).
      split; [intros _; now rewrite <- (piece_whole _ _ _ _ Hf Ew)|]. intros Hnc. exfalso. apply Hnc. split; [destruct A; discriminate|]. intros i Hi. rewrite <- Happ. apply Exists_app. left. apply Exists_app. right. left.
      unfold whole in Ew. apply andb_prop in Ew. destruct Ew as [W1 W2]. apply N.eqb_eq in W1, W2. lia.
    + assert (Hq' : Forall (piece e t b) (q_insert f q)) by (now apply q_insert_forall).
      assert (Hw' : Forall (fun f => whole f = false) (q_insert f q)) by (now apply (q_insert_forall (fun f => whole f = false))).
      assert (Hs' : by_offset (q_insert f q)).
      { apply (q_insert_by_offset e); auto. eapply Forall_impl; [|exact Hq]. intros g (G1 & _). exact G1. }
      assert (Hne : q_insert f q <> []) by (destruct q; cbn [q_insert]; [discriminate|destruct (_ || _); discriminate]).
      assert (I1' : incl (q_insert f q) (A ++ [f])).
      { intros g Hg. apply q_insert_in in Hg. apply in_or_app. destruct Hg as [->|Hg]; [right; left; reflexivity|left; auto]. }
      assert (I2' : incl (A ++ [f]) (q_insert f q)).
      { intros g Hg. apply q_insert_in. apply in_app_or in Hg. destruct Hg as [Hg|[->|[]]]; auto. }
      destruct (q_check_pieces e t b _ Hq' Hw' Hs' Hne) as [Q1 Q2].
      destruct (covered_dec (q_insert f q) (len b)) as [Hc|Hc].
      * rewrite (Q1 Hc). rewrite Hdone by (now apply drop_forall). split; [reflexivity|]. intros Hnc. exfalso. apply Hnc.
        split; [destruct A; discriminate|]. intros i Hi. rewrite <- Happ. apply Exists_app. left. eapply Exists_incl; [exact I1'|now apply Hc].
      * rewrite (Q2 Hc). destruct (IH k (A ++ [f]) (q_insert f q)) as [H1 H2]; auto.
        { left. destruct Hc as (i & Hi & Hn'). exists i. split; [auto|]. intros Hx. apply Hn'. eapply Exists_incl; [exact I2'|exact Hx]. }
        { simpl in Hk. lia. }
        assert (Hcov : covers ((A ++ [f]) ++ fs) (len b) <-> covers (A ++ f :: fs) (len b)) by (now rewrite <- app_assoc).
        split; intros Hx; [apply H1|apply H2]; now rewrite Hcov.
Qed.

Theorem single_progress ms x seq fs now t b : dtls_reader x seq fs -> ms seq = Some (t, b) -> Forall (fun f => genuine ms f /\ hm_seq f = seq) fs ->
  exists F, forall fuel k, (F <= fuel)%nat -> (F <= k)%nat ->
    (covers fs (len b) -> received fuel k now x = [Ok (message seq (t, b))]) /\ (~ covers fs (len b) -> received fuel k now x = []).
Proof.
  intros Hx Hms Hf. destruct (reader_reads x seq fs now Hx) as (F & HF). exists (F + S (List.length fs))%nat. intros fuel k Hfu Hk.
  destruct (HF fuel k ltac:(lia)) as (k' & A & B & ->).
  apply (qreads_pieces seq t b fs k' [] []); auto; try constructor; try (intros g []); [|lia].
  destruct Hx as (_ & _ & _ & _ & Hw & _). rewrite Forall_forall in *. intros f Hin. destruct (Hf f Hin) as ((b' & G1 & G2 & G3 & G4) & Hs).
  destruct (Hw f Hin) as (W1 & _ & _ & _ & _ & W2). rewrite Hs, Hms in G1. injection G1 as -> <-.
  repeat split; auto.
Qed.

(** ** Records that carry fragments *)

Lemma Forall2_impl {A B} (P Q : A -> B -> Prop) l l' : (forall a b, P a b -> Q a b) -> Forall2 P l l' -> Forall2 Q l l'.
Proof. induction 2; constructor; auto. Qed.

Lemma carried_stream recs : forall fs core, Forall2 (carries (cur core)) recs fs -> dtls_readable (len recs) core ->
  exists pts, record_stream true core (concat recs) pts /\ Forall (fun pt => p_type pt = rtHandshake /\ p_epoch pt = rl_epoch core) pts /\
    concat (map p_fragment pts) = concat (map hm_marshal fs).
Proof.
  induction recs as [|rec recs IH]; intros fs core HF HR.
  - inversion HF; subst. exists []. split; [|split; [constructor|reflexivity]]. constructor.
    destruct HR as (-> & _). reflexivity.
  - inversion HF as [|? f ? fs' Hc HF']; subst. destruct Hc as (w & i & c' & Hp & Hd & K1 & K2 & K3).
    destruct HR as (R1 & R2 & R3 & R4 & R5 & R6 & R7). rewrite len_cons in R6.
    destruct (protect_handle w core i (mkMsg rtHandshake (hm_marshal f) 0) rec c' true Hp) as (hdr & ct & Er & Hff & Hhf); auto.
    { unfold matches. rewrite Hd, R1. repeat split; auto. }
    { cbn [m_type]. destruct (c_aead (get_cs w i)) as [k|]; [|right; left; reflexivity]. split; [now apply R7|discriminate]. }
    { lia. }
    set (core' := set_cs core (r_cipher core) _) in Hhf.
    assert (Cu : cur core' = mkCs (c_epoch (cur core)) (c_seq (cur core) + 1) (c_iv (cur core)) (c_aead (cur core))) by (apply cur_set; auto).
    destruct (IH fs' core') as (pts & P1 & P2 & P3).
    + eapply Forall2_impl; [|exact HF']. intros a b (w1 & i1 & c1 & Q1 & Q2 & Q3). exists w1, i1, c1. split; [exact Q1|]. split; [exact Q2|].
      unfold same_keys in *. rewrite Cu. exact Q3.
    + unfold dtls_readable. rewrite Cu. cbn [c_epoch c_seq c_aead]. split; [exact R1|]. split; [exact R2|]. split; [now apply cur_ok_set|].
      split; [exact R4|]. split; [exact R5|]. split; [lia|exact R7].
    + eexists (_ :: pts). split; [|split].
      * cbn [concat]. econstructor; [apply Hff|exact Hhf|exact P1].
      * assert (Ee : rl_epoch core' = rl_epoch core) by (unfold rl_epoch; change (get_cs core' (r_cipher core')) with (cur core'); now rewrite Cu).
        constructor; [split; reflexivity|]. now rewrite <- Ee.
      * cbn [map concat p_fragment m_content]. now rewrite P3.
Qed.

Lemma carried_reader core seq recs fs x : dtls_endpoint core seq recs x -> Forall2 (carries (cur core)) recs fs -> Forall wire_ok fs ->
  dtls_readable (len recs) core -> dtls_reader x seq fs.
Proof.
  intros (E1 & E2 & E3 & E4 & E5) HF Hw HR. destruct (carried_stream recs fs core HF HR) as (pts & P1 & P2 & P3).
  unfold dtls_reader. repeat (split; [assumption|]). exists core, (map RBytes recs), (concat recs), pts.
  split; [exact E5|]. split; [apply HR|]. split; [exists recs; auto|]. auto.
Qed.
