(** Proofs about histories of a sending DTLS endpoint: acknowledgements and genuine fragments. *)
From Verif Require Import Base Syntax SyntaxSpec SyntaxMain Frame FrameProofs Record RecordSpec RecordProofs RecordProofs2 Timer TimerProofs Handshake HandshakeSpec HandshakeProofs DtlsSpec DtlsProofs DtlsProofs2.

(** ** ACK bodies *)

Lemma ack_elems l : forall b, enc_all (encode (TUint U64) (mkOpts false false 2 0 0 false false false)) l = Ok b ->
  exists nums, l = map VUint nums /\ b = concat (map (be 8) nums) /\ len b = 8 * len nums.
Proof.
  induction l as [|v l IH]; intros b H; cbn [enc_all] in H; [inv_ok H; exists []; auto|].
  inv_bind H as b1 H1. inv_bind H as b2 H2. inv_ok H. destruct (IH _ H2) as (nums & -> & -> & Hl).
  cbn [encode] in H1. destruct v as [n| | | |]; try discriminate. destruct (_ <? _); [|discriminate]. cbn [varint usz] in H1. inv_ok H1.
  exists (n :: nums). split; [reflexivity|]. split; [reflexivity|]. rewrite len_app, len_cons, Hl. assert (E8 : len (be 8 n) = 8) by (unfold len; now rewrite be_length). rewrite E8. clear. lia.
Qed.
Lemma ack_decoded data v : unmarshal (List.length data) (TPtr ack_ty) data = Ok (v, List.length data) -> data = ack_bytes (ack_numbers v).
Proof.
  intros H. assert (Hf : fixed_form (TPtr ack_ty) null_opts) by (simpl; intuition (discriminate || auto)).
  pose proof (main_canonical _ _ _ _ _ Hf H) as E. rewrite firstn_all in E. unfold marshal in E.
  change (ty_valid (TPtr ack_ty)) with true in E. cbn [encode null_opts optional ack_ty] in E.
  destruct v as [| | | |v]; try discriminate. inv_bind E as b1 E1. inv_ok E. destruct v as [|l| | |]; try discriminate.
  cbn [encode_fields] in E1. destruct l as [|v l]; [discriminate|]. cbn [omit] in E1. inv_bind E1 as b2 E2. inv_bind E1 as b3 E3.
  destruct l; [|discriminate]. inv_ok E3. inv_ok E1. destruct v as [|l| | |]; try discriminate. inv_bind E2 as body E4. inv_bind E2 as h E5. inv_ok E2.
  destruct (ack_elems _ _ E4) as (nums & -> & -> & Hl). cbn [ack_numbers]. rewrite map_map. cbn [uint_of]. rewrite map_id.
  unfold encodeLength in E5. cbn [maxSize minSize omitHeader varintHeader headerSize] in E5.
  destruct (_ && _); [discriminate|]. destruct (_ <? _)%Z; [discriminate|]. cbn [Z.ltb Z.compare] in E5. destruct (_ <? _)%Z; [discriminate|]. inv_ok E5.
  unfold ack_bytes. rewrite Hl. cbn [app]. now rewrite app_nil_r.
Qed.

(** ** The invariant of a sending endpoint *)

Definition is_ack (core : rcore) (rec : bytes) : Prop :=
  exists w i c' nums, protect w i (mkPt rtAck 0 0 (ack_bytes nums)) 0 = Ok (rec, c') /\ r_datagram w = true /\ same_keys (get_cs w i) (cur core).

Definition good_msg (n0 : N) (ms : list (byte * bytes)) (core : rcore) (m : hmsg) : Prop :=
  hm_datagram m = true /\ hm_cipher m = Some (r_cipher core) /\ numbered n0 ms (hm_seq m) = Some (hm_type m, hm_body m) /\ hm_length m = len (hm_body m).
Section Winv.
(** Whether acknowledgements may be among the records. *)
Variable al : bool.
Definition good_record (n0 : N) (ms : list (byte * bytes)) (core : rcore) (rec : bytes) : Prop :=
  (exists f, carries (cur core) rec f /\ genuine (numbered n0 ms) f /\ hm_datagram f = true /\ hm_cipher f = None) \/ (al = true /\ is_ack core rec).
Definition base_number (core : rcore) : N := c_epoch (cur core) * 2 ^ 48 + c_seq (cur core).
Definition good_entry (acks : list bytes) (x : hctx) (s : sfrag) : Prop :=
  (exists rec f, In rec (out_records x) /\ carries (cur (out_core x)) rec f /\ record_number rec = sf_record s /\ entry_for s f) /\
  (sf_acked s = true -> exists nums, In (ack_bytes nums) acks /\ In (sf_record s) nums).

Definition winv (n0 : N) (ms : list (byte * bytes)) (acks : list bytes) (x : hctx) : Prop :=
  let core := out_core x in
  hl_datagram (x_out x) = true /\ r_datagram core = true /\ cur_ok core /\ c_epoch (cur core) < 2 ^ 16 /\ c_seq (cur core) < 2 ^ 48 /\
  hl_msgSeq (x_out x) = n0 + len ms /\ Forall (good_msg n0 ms core) (hl_queued (x_out x)) /\ Forall (good_entry acks x) (x_sent x) /\
  NoDup (map record_number (out_records x)) /\ Forall (fun rec => record_number rec < base_number core) (out_records x) /\
  Forall (good_record n0 ms core) (out_records x).

Lemma winv_ext n0 ms acks x x' : x_out x' = x_out x -> x_sent x' = x_sent x -> winv n0 ms acks x -> winv n0 ms acks x'.
Proof. unfold winv, good_entry, out_core, out_records. intros -> ->. auto. Qed.

Lemma combine_number c : c_seq c < 2 ^ 48 -> combineSeq c true = c_epoch c * 2 ^ 48 + c_seq c.
Proof. intros H. unfold combineSeq. rewrite lor_disjoint by exact H. lia. Qed.
Lemma number_protect core i pt rec c' : r_datagram core = true -> c_epoch (get_cs core i) < 2 ^ 16 -> c_seq (get_cs core i) < 2 ^ 48 ->
  protect core i pt 0 = Ok (rec, c') -> record_number rec = combineSeq (get_cs core i) true.
Proof.
  intros Hd He Hs H. apply protect_inv in H. destruct H as (hdr & ct & -> & _ & _ & H). rewrite Hd in H.
  assert (G : forall t v s n hdr', s < 2 ^ 64 -> recordHeader true v t s n = Ok hdr' -> record_number (hdr' ++ ct) = s).
  { intros t v s n hdr' Hs' E. unfold recordHeader in E. inv_bind E as v' Ev. inv_ok E. unfold record_number.
    change (skipn 3 (([t] ++ be 2 v' ++ be 8 s ++ be 2 (N.of_nat n)) ++ ct)) with (skipn 3 ([t] ++ ((be 2 v' ++ be 8 s ++ be 2 (N.of_nat n)) ++ ct))).
    assert (E3 : [t] ++ ((be 2 v' ++ be 8 s ++ be 2 (N.of_nat n)) ++ ct) = ([t] ++ be 2 v') ++ be 8 s ++ be 2 (N.of_nat n) ++ ct) by (now rewrite <- !app_assoc).
    rewrite E3. rewrite skipn_app_n by (rewrite app_length, be_length; reflexivity). rewrite firstn_app_n by (now rewrite be_length).
    rewrite unbe_be. apply N.mod_small. exact Hs'. }
  assert (Hn : combineSeq (get_cs core i) true < 2 ^ 64) by (rewrite combine_number by exact Hs; lia).
  destruct (c_aead (get_cs core i)) as [k|].
  - destruct H as (_ & nonce & _ & Hh & _). eapply G; eauto.
  - destruct H as (_ & _ & Hh). eapply G; eauto.
Qed.

Lemma NoDup_app' {A} (l l' : list A) : NoDup l -> NoDup l' -> (forall a, In a l -> ~ In a l') -> NoDup (l ++ l').
Proof.
  induction 1 as [|a l Ha Hl IH]; intros H' Hd; [exact H'|]. cbn [app]. constructor.
  - intros Hin. apply in_app_or in Hin. destruct Hin as [Hin|Hin]; [auto|]. apply (Hd a); [left; reflexivity|exact Hin].
  - apply IH; [exact H'|]. intros b Hb. apply Hd. now right.
Qed.

(** One record under the current cipher. *)
Lemma winv_record n0 ms acks x x' rec c' pt :
  winv n0 ms acks x -> protect (out_core x) (r_cipher (out_core x)) pt 0 = Ok (rec, c') ->
  out_core x' = set_cs (out_core x) (r_cipher (out_core x)) c' -> out_records x' = out_records x ++ [rec] ->
  hl_datagram (x_out x') = hl_datagram (x_out x) -> hl_msgSeq (x_out x') = hl_msgSeq (x_out x) -> hl_queued (x_out x') = hl_queued (x_out x) ->
  good_record n0 ms (out_core x) rec ->
  (forall s, In s (x_sent x') -> In s (x_sent x) \/ (sf_acked s = false /\ sf_record s = combineSeq (cur (out_core x)) true /\ exists f, carries (cur (out_core x)) rec f /\ entry_for s f)) ->
  winv n0 ms acks x'.
Proof.
  intros (I1 & I2 & I3 & I4 & I5 & I6 & I7 & I8 & I9 & I10 & I11) Hp Hc Hr Hd Hm Hq Hg Hs.
  assert (Hn := number_protect _ _ _ _ _ I2 I4 I5 Hp). fold (cur (out_core x)) in Hn.
  apply protect_inv in Hp. destruct Hp as (_ & _ & _ & _ & Hi & _). apply incr_inv in Hi. destruct Hi as [Hlt Hc']. fold (cur (out_core x)) in Hlt, Hc'.
  assert (Cu : cur (out_core x') = c') by (rewrite Hc; now apply cur_set).
  assert (Ci : r_cipher (out_core x') = r_cipher (out_core x)) by (rewrite Hc; reflexivity).
  assert (Hb : base_number (out_core x') = base_number (out_core x) + 1).
  { unfold base_number. rewrite Cu, Hc'. cbn [c_epoch c_seq]. lia. }
  assert (Hk : same_keys (cur (out_core x)) (cur (out_core x'))) by (rewrite Cu, Hc'; repeat split).
  assert (Hgr : forall r, good_record n0 ms (out_core x) r -> good_record n0 ms (out_core x') r).
  { intros r [(f & F1 & F2)|(Hal & w & i & c1 & nums & F1 & F2 & F3)].
    - left. exists f. split; [|exact F2]. eapply carries_keys; [|exact F1]. destruct Hk as (K1 & K2 & K3). repeat split; congruence.
    - right. split; [exact Hal|]. exists w, i, c1, nums. split; [exact F1|]. split; [exact F2|]. eapply same_keys_trans; eauto. }
  unfold winv. rewrite Hd, Hm, Hq, Hr, Cu, Hb, Hc'. cbn [c_epoch c_seq].
  split; [exact I1|]. split; [rewrite Hc; exact I2|]. split; [rewrite Hc; now apply cur_ok_set|]. split; [exact I4|]. split; [lia|]. split; [exact I6|].
  split; [eapply Forall_impl; [|exact I7]; intros m (G1 & G2 & G3); unfold good_msg; rewrite Ci; auto|].
  split.
  { apply Forall_forall. intros s Hin. destruct (Hs s Hin) as [Hold|(S1 & S2 & f & S3 & S4)].
    - rewrite Forall_forall in I8. destruct (I8 s Hold) as ((r & f & R1 & R2 & R3) & Ha). split; [|exact Ha].
      exists r, f. rewrite Hr. split; [apply in_or_app; auto|]. split; [|exact R3]. eapply carries_keys; [|exact R2]. destruct Hk as (K1 & K2 & K3). repeat split; congruence.
    - split; [|congruence]. exists rec, f. rewrite Hr. split; [apply in_or_app; right; left; reflexivity|].
      split; [eapply carries_keys; [|exact S3]; destruct Hk as (K1 & K2 & K3); repeat split; congruence|]. split; [congruence|exact S4]. }
  split.
  { rewrite map_app. apply NoDup_app'; [exact I9|repeat constructor; intros []|]. intros n Hn1 [<-|[]]. apply in_map_iff in Hn1. destruct Hn1 as (r & Hr1 & Hr2).
    rewrite Forall_forall in I10. specialize (I10 r Hr2). rewrite Hr1, Hn, combine_number in I10 by exact I5. unfold base_number in I10. lia. }
  split.
  { apply Forall_app. split; [eapply Forall_impl; [|exact I10]; cbn beta; intros; lia|]. repeat constructor. rewrite Hn, combine_number by exact I5. unfold base_number. lia. }
  apply Forall_app. split; [eapply Forall_impl; [|exact I11]; exact Hgr|]. constructor; [now apply Hgr|constructor].
Qed.

Lemma chunk_genuine n0 ms core m start n : good_msg n0 ms core m -> (start + n <= List.length (hm_body m))%nat -> genuine (numbered n0 ms) (chunk m start n).
Proof.
  intros (G1 & G2 & G3 & G4) H. destruct (chunk_fragment m start n H) as [(F1 & F2 & F3 & F4 & F5 & F6 & F7) _].
  exists (hm_body m). split; [rewrite F1, F2; exact G3|]. split; [congruence|]. split; [exact F6|exact F7].
Qed.

Lemma winv_fragment n0 ms acks x m start room x' wrote next : winv n0 ms acks x -> good_msg n0 ms (out_core x) m -> (start <= List.length (hm_body m))%nat ->
  writeFragment x m start room = (x', Ok (wrote, next)) ->
  winv n0 ms acks x' /\ r_cipher (out_core x') = r_cipher (out_core x) /\ (next <= List.length (hm_body m))%nat.
Proof.
  intros HI Hm Hs H. pose proof HI as (I1 & I2 & _). pose proof Hm as (G1 & G2 & G3 & G4).
  destruct (writeFragment_dtls _ _ _ _ _ _ _ _ I1 I2 G1 G2 Hs H) as (n & En & Hr & -> & Hw).
  assert (Hn : (start + n <= List.length (hm_body m))%nat) by lia. split; [|split; [|exact Hn]].
  - destruct wrote; [|destruct Hw as (_ & ->); exact HI].
    destruct Hw as (_ & rec & s & Hcar & (B1 & B2 & B3 & B4 & B5 & B6 & B7 & B8 & B9 & _) & S1 & S2 & S3 & c' & Hp & Hc & S4).
    fold (cur (out_core x)) in Hcar.
    eapply (winv_record n0 ms acks x x' rec c'); eauto.
    + left. exists (chunk m start n). split; [exact Hcar|]. split; [eapply chunk_genuine; eauto|]. split; reflexivity.
    + intros s' Hin. rewrite B1 in Hin. apply in_app_or in Hin. destruct Hin as [Hin|[<-|[]]]; [auto|]. right.
      split; [now apply Forall_inv in B2|]. split; [exact S4|]. exists (chunk m start n). split; [exact Hcar|].
      destruct (chunk_fragment m start n Hn) as [_ Hl]. split; [exact S1|]. rewrite Hl, S2, S3. split; reflexivity.
  - destruct wrote; [|destruct Hw as (_ & ->); reflexivity].
    destruct Hw as (_ & rec & s & _ & _ & _ & _ & _ & c' & _ & -> & _). reflexivity.
Qed.

Lemma winv_message_loop n0 ms acks m : forall fuel x start written x' k, winv n0 ms acks x -> good_msg n0 ms (out_core x) m -> (start <= List.length (hm_body m))%nat ->
  writeMessage_loop fuel x m start written = (x', Ok k) -> winv n0 ms acks x' /\ r_cipher (out_core x') = r_cipher (out_core x).
Proof.
  induction fuel as [|fuel IH]; intros x start written x' k HI Hm Hs H; [discriminate|]. cbn [writeMessage_loop] in H.
  destruct (writeFragment x m start (hl_max (x_out x))) as [x1 [[wrote next]|e| |]] eqn:E; try discriminate. cbn [sbind] in H.
  destruct (winv_fragment _ _ _ _ _ _ _ _ _ _ HI Hm Hs E) as (H1 & H2 & H3).
  destruct (_ <=? _)%nat; [injection H as <- _; auto|].
  assert (Hm1 : good_msg n0 ms (out_core x1) m) by (destruct Hm as (G1 & G2 & G3); split; [exact G1|]; split; [congruence|exact G3]).
  destruct (IH _ _ _ _ _ H1 Hm1 H3 H) as [J1 J2]. split; [exact J1|congruence].
Qed.
Lemma winv_messages n0 ms acks q : forall x x' k, winv n0 ms acks x -> Forall (good_msg n0 ms (out_core x)) q ->
  writeMessages x q = (x', Ok k) -> winv n0 ms acks x' /\ r_cipher (out_core x') = r_cipher (out_core x).
Proof.
  induction q as [|m q IH]; intros x x' k HI HF H; cbn [writeMessages] in H; [injection H as <- _; auto|].
  inversion HF as [|? ? Hm HF']; subst.
  destruct (writeMessage x m) as [x1 [n|e| |]] eqn:E; try discriminate. cbn [sbind] in H.
  destruct (writeMessages x1 q) as [x2 [n2|e| |]] eqn:E2; try discriminate. cbn [sbind] in H. injection H as <- _.
  unfold writeMessage in E. destruct (_ <? _); [discriminate|].
  destruct (winv_message_loop _ _ _ _ _ _ _ _ _ _ HI Hm (Nat.le_0_l _) E) as [H1 H2].
  destruct (IH x1 x2 n2 H1) as [J1 J2]; [|exact E2|split; [exact J1|congruence]].
  eapply Forall_impl; [|exact HF']. intros q' (G1 & G2 & G3). split; [exact G1|]. split; [congruence|exact G3].
Qed.
Lemma winv_send n0 ms acks x x' k : winv n0 ms acks x -> sendQueued x = (x', Ok k) -> winv n0 ms acks x'.
Proof.
  intros HI H. unfold sendQueued in H. destruct (writeMessages x (hl_queued (x_out x))) as [x1 r] eqn:E. injection H as <- ->.
  pose proof HI as (_ & _ & _ & _ & _ & _ & I7 & _). destruct (winv_messages _ _ _ _ _ _ _ HI I7 E) as [H1 _].
  pose proof H1 as (I1 & _). now rewrite I1.
Qed.
Lemma winv_clear n0 ms acks x : winv n0 ms acks x -> winv n0 ms acks (clearQueued x).
Proof.
  intros (I1 & I2 & I3 & I4 & I5 & I6 & I7 & I8 & I9 & I10 & I11). unfold winv, clearQueued, out_core, out_records in *. cbn.
  repeat (split; [assumption|]). split; [constructor|]. repeat (split; [assumption|]). exact I11.
Qed.

Lemma ack_marshalled nums body : marshal (TPtr (TPtr ack_ty)) (VPtr (VPtr (ack_val nums))) = Ok body -> body = ack_bytes nums.
Proof.
  unfold marshal. change (ty_valid (TPtr (TPtr ack_ty))) with true. cbn [encode null_opts optional ack_ty ack_val encode_fields omit]. intros H.
  inv_bind H as b1 H1. inv_ok H. inv_bind H1 as b2 H2. inv_ok H1. inv_bind H2 as b3 H3. inv_bind H2 as b4 H4. inv_ok H2. inv_ok H4.
  inv_bind H3 as b5 H5. inv_bind H3 as h H6. inv_ok H3. destruct (ack_elems _ _ H5) as (nums' & En & -> & Hl).
  assert (nums' = nums). { apply (f_equal (map uint_of)) in En. rewrite !map_map in En. cbn [uint_of] in En. now rewrite !map_id in En. } subst nums'.
  unfold encodeLength in H6. cbn [maxSize minSize omitHeader varintHeader headerSize] in H6.
  destruct (_ && _); [discriminate|]. destruct (_ <? _)%Z; [discriminate|]. cbn [Z.ltb Z.compare] in H6. destruct (_ <? _)%Z; [discriminate|]. inv_ok H6.
  unfold ack_bytes. rewrite Hl. cbn [app]. now rewrite app_nil_r.
Qed.
Lemma winv_sendAck n0 ms acks x : al = true -> winv n0 ms acks x -> winv n0 ms acks (fst (sendAck x)).
Proof.
  intros Hal HI. unfold sendAck. destruct (marshal _ _) as [body|e| |] eqn:Em; try exact HI. apply ack_marshalled in Em.
  unfold writeRecord, writeRecordWithPadding. destruct (protect _ _ _ _) as [[rec c']|e| |] eqn:Ep.
  - pose proof HI as (I1 & I2 & _). cbn [fst]. eapply (winv_record n0 ms acks x _ rec c'); eauto; try reflexivity.
    right. split; [exact Hal|]. exists (out_core x), (r_cipher (out_core x)), c'. eexists. split; [rewrite <- Em; exact Ep|]. split; [exact I2|apply same_keys_refl].
  - eapply winv_ext; [| |exact HI]; [|reflexivity]. cbn. unfold set_conn. now destruct (x_out x).
  - eapply winv_ext; [| |exact HI]; [|reflexivity]. cbn. unfold set_conn. now destruct (x_out x).
  - eapply winv_ext; [| |exact HI]; [|reflexivity]. cbn. unfold set_conn. now destruct (x_out x).
Qed.
Lemma winv_fire n0 ms acks now c x x' u : al = true -> winv n0 ms acks x -> fire now c x = (x', Ok u) -> winv n0 ms acks x'.
Proof.
  intros Hal HI H. destruct c; cbn [fire] in H.
  - unfold handshakeRetransmit in H. destruct (sendQueued x) as [x1 [n|e| |]] eqn:E; try discriminate. cbn [sbind] in H. injection H as <- _.
    apply (winv_send _ _ _ _ _ _ HI) in E. eapply winv_ext; [| |exact E]; reflexivity.
  - pose proof (winv_sendAck n0 ms acks x Hal HI) as G. rewrite H in G. exact G.
Qed.
Lemma winv_timers n0 ms acks grow now x x' u : al = true -> winv n0 ms acks x -> checkTimers grow now x = (x', Ok u) -> winv n0 ms acks x'.
Proof.
  intros Hal. unfold checkTimers, check. generalize (ts_cur (x_timers x)), (List.length (slice (x_timers x))), 0%nat. intros a0 todo.
  revert x. induction todo as [|todo IH]; intros x i HI; cbn [check_loop]; [now intros [= <- _]|].
  destruct (nth i _ None) as [id|]; [|discriminate]. cbv zeta. destruct (_ <? _); [|now intros [= <- _]].
  destruct (reappend _ _ _) as [s|e| |]; try discriminate. destruct (tm_cb _) as [cb|].
  - destruct (fire now cb _) as [x1 [u1|e| |]] eqn:E; try discriminate. intros H. eapply IH; [|exact H].
    eapply winv_fire; [exact Hal| |exact E]. eapply winv_ext; [| |exact HI]; reflexivity.
  - intros H. eapply IH; [|exact H]. eapply winv_ext; [| |exact HI]; reflexivity.
Qed.
Lemma winv_acks n0 ms acks acks' x : incl acks acks' -> winv n0 ms acks x -> winv n0 ms acks' x.
Proof.
  intros Hi (I1 & I2 & I3 & I4 & I5 & I6 & I7 & I8 & I9). unfold winv. repeat (split; [assumption|]). split; [|exact I9].
  eapply Forall_impl; [|exact I8]. intros s (E1 & E2). split; [exact E1|]. intros Ha. destruct (E2 Ha) as (nums & N1 & N2). exists nums. auto.
Qed.
Lemma winv_ack n0 ms acks now x data x' u : winv n0 ms acks x -> processAck now x data = (x', Ok u) -> winv n0 ms (acks ++ [data]) x'.
Proof.
  intros HI H. unfold processAck in H. cbv zeta in H. destruct (unmarshal _ _ _) as [[v rd]|e| |] eqn:Eu; try discriminate.
  destruct (Nat.eqb_spec (List.length data) rd) as [<-|]; [|discriminate]. cbn [negb] in H. apply ack_decoded in Eu.
  match type of H with context [sendQueued ?y] => set (x1 := y) in * end.
  assert (HI1 : winv n0 ms (acks ++ [data]) x1).
  { apply (winv_acks _ _ acks (acks ++ [data])) in HI; [|intros a Ha; apply in_or_app; auto].
    destruct HI as (I1 & I2 & I3 & I4 & I5 & I6 & I7 & I8 & I9). unfold winv. repeat (split; [assumption|]). split; [|exact I9].
    cbn [x1 x_sent set_sent set_timers]. unfold mark_acked. rewrite Forall_map. eapply Forall_impl; [|exact I8]. intros s (E1 & E2).
    split; [exact E1|]. cbn [sf_acked sf_record]. intros Ha. apply orb_prop in Ha. destruct Ha as [Ha|Ha]; [auto|].
    exists (ack_numbers v). split; [rewrite <- Eu; apply in_or_app; right; left; reflexivity|]. apply existsb_exists in Ha. destruct Ha as (r & Hr & He). apply N.eqb_eq in He. congruence. }
  destruct (sendQueued x1) as [x2 [n|e| |]] eqn:E; try discriminate. cbn [sbind] in H. apply (winv_send _ _ _ _ _ _ HI1) in E.
  destruct (n =? 0)%nat; injection H as <- _; [now apply winv_clear|]. eapply winv_ext; [| |exact E]; reflexivity.
Qed.

Definition acks_of (acts : list wact) : list bytes := flat_map (fun a => match a with WaAck _ d => [d] | _ => [] end) acts.

Lemma numbered_app n0 ms t b i v : numbered n0 ms i = Some v -> numbered n0 (ms ++ [(t, b)]) i = Some v.
Proof.
  unfold numbered. destruct (_ <? _); [discriminate|]. intros H. rewrite nth_error_app1; [exact H|]. apply nth_error_Some. congruence.
Qed.
Lemma winv_queue n0 ms acks x t b x' u : winv n0 ms acks x -> len b < 2 ^ 24 -> n0 + len ms + 1 < 2 ^ 32 ->
  wact_step x (WaQueue t b) = (x', Ok u) -> winv n0 (ms ++ [(t, b)]) acks x'.
Proof.
  intros (I1 & I2 & I3 & I4 & I5 & I6 & I7 & I8 & I9 & I10 & I11) Hb Hn H.
  cbn [wact_step messageFromBody] in H. unfold queueMessage in H. cbn [set_out x_out set_queue hl_datagram] in H. rewrite I1 in H. injection H as <- _.
  unfold winv, out_core, out_records in *. cbn.
  split; [exact I1|]. split; [exact I2|]. split; [exact I3|]. split; [exact I4|]. split; [exact I5|].
  split; [rewrite I6, len_app, N.mod_small by lia; change (len [(t, b)]) with 1; lia|]. split.
  { apply Forall_app. split.
    - eapply Forall_impl; [|exact I7]. intros m (G1 & G2 & G3 & G4). split; [exact G1|]. split; [exact G2|]. split; [now apply numbered_app|exact G4].
    - repeat constructor. cbn [hm_seq hm_type hm_body]. rewrite I6. unfold numbered. destruct (N.ltb_spec (n0 + len ms) n0); [lia|].
      replace (N.to_nat (n0 + len ms - n0)) with (List.length ms) by (unfold len; lia). rewrite nth_error_app2, Nat.sub_diag by lia. reflexivity.
      cbn [hm_length hm_body]. apply N.mod_small. lia. }
  split; [exact I8|]. split; [exact I9|]. split; [exact I10|]. eapply Forall_impl; [|exact I11]. intros r [(f & F1 & (b' & F2) & F3)|Ha]; [|now right].
  left. exists f. split; [exact F1|]. split; [|exact F3]. exists b'. destruct F2 as [F2 F4]. split; [now apply numbered_app|exact F4].
Qed.

Lemma winv_run n0 acts : forall ms acks x x', Forall (fun a => sends_acks a = true -> al = true) acts -> winv n0 ms acks x -> Forall (fun m => len (snd m) < 2 ^ 24) (queue_of acts) ->
  n0 + len ms + len (queue_of acts) < 2 ^ 32 - 1 -> wact_run x acts = Some x' -> winv n0 (ms ++ queue_of acts) (acks ++ acks_of acts) x'.
Proof.
  induction acts as [|a acts IH]; intros ms acks x x' Hal HI HL Hn H; cbn [wact_run] in H.
  { injection H as <-. cbn. now rewrite !app_nil_r. }
  destruct (wact_step x a) as [x1 [u|e| |]] eqn:E; try discriminate.
  change (queue_of (a :: acts)) with ((match a with WaQueue t b => [(t, b)] | _ => [] end) ++ queue_of acts) in *.
  change (acks_of (a :: acts)) with ((match a with WaAck _ d => [d] | _ => [] end) ++ acks_of acts).
  rewrite !app_assoc. rewrite len_app in Hn. apply Forall_app in HL. destruct HL as [HL1 HL2].
  inversion Hal as [|? ? Ha1 Hal']; subst. apply (IH _ _ x1); [exact Hal'| |exact HL2|rewrite len_app; lia|exact H].
  destruct a; rewrite ?app_nil_r.
  - inversion HL1; subst. eapply winv_queue; eauto. change (len [(t, b)]) with 1 in Hn. lia.
  - cbn [wact_step] in E. destruct (sendQueued x) as [x2 [n|e| |]] eqn:E2; cbn [bind] in E; try discriminate. injection E as <- _. eapply winv_send; eauto.
  - eapply winv_timers; eauto.
  - eapply winv_ack; eauto.
  - cbn [wact_step] in E. injection E as <- _. unfold receivedHandshakeMessage. destruct (negb _); [exact HI|]. cbv zeta.
    assert (G : winv n0 ms acks (if x_waiting x then set_waiting (set_timers (clearQueued x) (cancel retransmitTimerLabel (x_timers x))) false else x)).
    { destruct (x_waiting x); [|exact HI]. eapply winv_ext; [| |apply winv_clear; exact HI]; reflexivity. }
    destruct (getTimer _ _); [exact G|]. eapply winv_ext; [| |exact G]; reflexivity.
  - cbn [wact_step] in E. injection E as <- _. unfold receivedEndOfFlight. destruct (negb _); [exact HI|]. eapply winv_ext; [| |exact HI]; reflexivity.
  - cbn [wact_step] in E. unfold receivedFinalFlight in E. destruct (negb _); [injection E as <- _; exact HI|].
    match type of E with context [sendAck ?y] => pose proof (winv_sendAck n0 ms acks y (Ha1 eq_refl)) as G; destruct (sendAck y) as [x2 [n|e| |]] end; try discriminate; injection E as <- _; apply G; (eapply winv_ext; [| |exact HI]; reflexivity).
  - cbn [wact_step] in E. injection E as <- _. eapply winv_ext; [| |exact HI]; reflexivity.
Qed.

Lemma winv_start x : dtls_writer x -> winv (hl_msgSeq (x_out x)) [] [] x.
Proof.
  intros (I1 & I2 & I3 & I4 & I5 & I6 & I7 & I8). unfold winv. rewrite I6, I7, I8.
  repeat (split; [assumption|]). split; [change (len (@nil (byte * bytes))) with 0; lia|]. repeat (split; [constructor|]). constructor.
Qed.

End Winv.

Theorem acks_sound x acts x' s : dtls_writer x -> Forall (fun m => len (snd m) < 2 ^ 24) (queue_of acts) ->
  hl_msgSeq (x_out x) + len (queue_of acts) < 2 ^ 32 - 1 -> wact_run x acts = Some x' ->
  In s (x_sent x') -> sf_acked s = true ->
  exists now nums rec f, In (WaAck now (ack_bytes nums)) acts /\ In (record_number rec) nums /\ In rec (out_records x') /\
    carries (cur (out_core x')) rec f /\ entry_for s f /\
    forall rec', In rec' (out_records x') -> record_number rec' = record_number rec -> rec' = rec.
Proof.
  intros Hx HL Hn H Hin Ha. apply (winv_start true) in Hx.
  assert (Hal : Forall (fun a => sends_acks a = true -> true = true) acts) by (apply Forall_forall; auto).
  assert (HI := winv_run true _ acts [] [] x x' Hal Hx HL). rewrite N.add_0_r in HI. specialize (HI Hn H).
  destruct HI as (I1 & I2 & I3 & I4 & I5 & I6 & I7 & I8 & I9 & I10 & I11). rewrite Forall_forall in I8.
  destruct (I8 s Hin) as ((rec & f & R1 & R2 & R3 & R4) & Hk). destruct (Hk Ha) as (nums & N1 & N2).
  cbn [app] in N1. unfold acks_of in N1. apply in_flat_map in N1. destruct N1 as (a & A1 & A2). destruct a as [| | |now d| | | |]; try (destruct A2; fail). destruct A2 as [->|[]].
  exists now, nums, rec, f. split; [exact A1|]. split; [congruence|]. split; [exact R1|]. split; [exact R2|]. split; [exact R4|].
  intros rec' Hr He. clear - I9 R1 Hr He. revert I9 R1 Hr. generalize (out_records x'). induction l as [|a l IH]; intros Hd H1 H2; [destruct H1|].
  inversion Hd as [|? ? Hn Hd']; subst. destruct H1 as [->|H1]; destruct H2 as [->|H2]; auto.
  - exfalso. apply Hn. rewrite <- He. now apply in_map.
  - exfalso. apply Hn. rewrite He. now apply in_map.
Qed.

(** ** From one endpoint to the other *)

Theorem network x acts x' core recs y :
  dtls_writer x -> Forall (fun a => sends_acks a = false) acts -> Forall (fun m => len (snd m) < 2 ^ 24) (queue_of acts) ->
  hl_msgSeq (x_out x) + len (queue_of acts) < 2 ^ 16 -> wact_run x acts = Some x' ->
  Forall (fun rec => In rec (out_records x')) recs ->
  same_keys (cur core) (cur (out_core x')) -> dtls_readable (len recs) core -> dtls_endpoint core (hl_msgSeq (x_out x)) recs y ->
  exists fs, dtls_reader y (hl_msgSeq (x_out x)) fs /\ Forall (genuine (numbered (hl_msgSeq (x_out x)) (queue_of acts))) fs.
Proof.
  intros Hx Ha HL Hn H Hr Hk Hc Hy. apply (winv_start false) in Hx.
  assert (Hal : Forall (fun a => sends_acks a = true -> false = true) acts) by (eapply Forall_impl; [|exact Ha]; cbn beta; intros; congruence).
  assert (HI := winv_run false _ acts [] [] x x' Hal Hx HL). cbn [app] in HI. change (len (@nil (byte * bytes))) with 0 in HI. rewrite N.add_0_r in HI.
  specialize (HI ltac:(lia) H). destruct HI as (_ & _ & _ & _ & _ & _ & _ & _ & _ & _ & I11). rewrite Forall_forall in I11.
  set (n0 := hl_msgSeq (x_out x)) in *. set (ms := queue_of acts) in *.
  assert (G : exists fs, Forall2 (carries (cur core)) recs fs /\ Forall (fun f => genuine (numbered n0 ms) f /\ wire_ok f) fs).
  { clear Hy Hc. induction Hr as [|rec recs Hin Hr IH]; [exists []; split; constructor|]. destruct IH as (fs & F1 & F2).
    destruct (I11 rec Hin) as [(f & C1 & C2 & C3 & C4)|(Hf & _)]; [|discriminate].
    exists (f :: fs). split; constructor; auto.
    - eapply carries_keys; eauto.
    - split; [exact C2|]. destruct C2 as (b & D1 & D2 & D3 & _).
      assert (Hb : len b < 2 ^ 24 /\ hm_seq f < 2 ^ 16).
      { unfold numbered in D1. destruct (N.ltb_spec (hm_seq f) n0) as [|Hge]; [discriminate|]. split.
        - apply nth_error_In in D1. rewrite Forall_forall in HL. apply (HL _ D1).
        - assert (Hlt : (N.to_nat (hm_seq f - n0) < List.length ms)%nat) by (apply nth_error_Some; congruence). unfold len in Hn. lia. }
      destruct Hb as [Hb Hs]. split; [exact C3|]. split; [exact Hs|]. split; [lia|]. split; [lia|]. split; [lia|exact C4]. }
  destruct G as (fs & F1 & F2). exists fs. split.
  - eapply carried_reader; eauto. eapply Forall_impl; [|exact F2]. intros f []; assumption.
  - eapply Forall_impl; [|exact F2]. intros f []; assumption.
Qed.
