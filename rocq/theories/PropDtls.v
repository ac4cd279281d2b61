(** Properties C17-C22: DTLS reassembly, delivery, acknowledgements and retransmission. Vocabulary in
    DtlsSpec.v. *)
From Verif Require Import Base Frame Record RecordSpec PropRecord Timer Handshake HandshakeSpec PropHandshake TimerProofs DtlsSpec DtlsProofs DtlsProofs2 DtlsProofs3.

(** ** Endpoints for the examples *)

Definition seq_bytes (k : byte) (n : nat) : bytes := map (fun i => b8 (bN k + N.of_nat i)) (seq 0 n).
(** The fragment of [b] from [o] on, [n] bytes long. *)
Definition frag (s : N) (t : byte) (b : bytes) (o n : N) : hmsg := mkHm t s (part b o n) true o (len b) None.
Definition clear_core (dir : direction) : rcore := setVersion (l_core (newRecordLayer true dir [])) tls12Version.
(** Records in clear, one fragment each, numbered from [n]. *)
Definition clear_record (n : N) (f : hmsg) : bytes := [rtHandshake] ++ be 2 dtls12WireVersion ++ be 8 n ++ be 2 (len (hm_marshal f)) ++ hm_marshal f.
Definition clear_records (fs : list hmsg) : list bytes := map (fun p => clear_record (N.of_nat (fst p)) (snd p)) (combine (seq 0 (List.length fs)) fs).
Definition listener (core : rcore) (s : N) (recs : list bytes) : hctx :=
  let h := hl_of true true (fresh core (map RBytes recs)) initialMtu in hx_of (set_queue h s []) (newHandshakeLayer true (newRecordLayer true DirWrite [])).
Definition clear_listener (s : N) (fs : list hmsg) : hctx := listener (clear_core DirRead) s (clear_records fs).

Lemma clear_carries c n f : c_aead c = None -> c_iv c = [] -> c_epoch c = 0 -> n < 2 ^ 48 - 1 -> len (hm_marshal f) <= 2 ^ 14 -> carries c (clear_record n f) f.
Proof.
  intros H1 H2 H3 Hn Hl. set (w := resetClear (clear_core DirWrite) n). exists w, 1%nat, (mkCs EpochClear (n + 1) [] None).
  split; [|split; [reflexivity|unfold same_keys; rewrite H1, H2, H3; repeat split]].
  unfold protect. change (get_cs w 1) with (mkCs EpochClear n [] None). cbn [c_aead bind combineSeq c_seq c_epoch].
  change (r_datagram w) with true. change (r_version w) with tls12Version. cbn [recordHeader bind]. change (dtlsConvertVersion tls12Version) with (@Ok N dtls12WireVersion).
  cbn [bind Nat.ltb Nat.leb p_fragment p_type]. destruct (N.ltb_spec maxFragmentLen (len (hm_marshal f))) as [Hb|_]; [unfold maxFragmentLen in Hb; change (2 ^ 14) with 16384 in Hl; lia|].
  unfold incrementSequenceNumber. cbn [c_seq c_epoch c_iv c_aead]. destruct (N.leb_spec (2 ^ 48 - 1) n); [lia|]. cbn [bind].
  unfold clear_record, combineSeq. cbn [c_seq c_epoch]. change (N.shiftl EpochClear 48) with 0. rewrite N.lor_0_r, <- !app_assoc. reflexivity.
Qed.
(** Any fragments can be what such an endpoint gets. *)
Lemma clear_listener_ok s fs : Forall wire_ok fs -> Forall (fun f => len (hm_marshal f) <= 2 ^ 14) fs -> N.of_nat (List.length fs) < 2 ^ 32 ->
  dtls_reader (clear_listener s fs) s fs.
Proof.
  intros Hw Hl Hn. apply (carried_reader (clear_core DirRead) s (clear_records fs)); auto.
  - unfold dtls_endpoint. repeat split.
  - unfold clear_records. assert (Hs : forall k, (k + List.length fs < N.to_nat (2 ^ 32))%nat -> Forall2 (carries (cur (clear_core DirRead))) (map (fun p => clear_record (N.of_nat (fst p)) (snd p)) (combine (seq k (List.length fs)) fs)) fs).
    { clear Hn Hw. induction Hl as [|f fs Hf Hl IH]; intros k Hk; [constructor|]. cbn [List.length seq combine map fst snd]. constructor.
      - apply clear_carries; auto. simpl List.length in Hk. change (2 ^ 48 - 1) with 281474976710655. change (2 ^ 32) with 4294967296 in Hk. lia.
      - apply IH. simpl List.length in Hk. lia. }
    apply Hs. lia.
  - unfold dtls_readable. split; [reflexivity|]. split; [reflexivity|]. split; [cbv; lia|]. split; [reflexivity|]. split; [discriminate|]. split; [|discriminate].
    change (c_seq (cur (clear_core DirRead))) with 0. unfold clear_records, len. rewrite map_length, combine_length, seq_length. lia.
Qed.

(** ** C17: reassembly *)

(** Whatever fragments of the peer's messages arrive, in whatever order and however often: a delivered message
    is the one the peer sent under that number, provided no earlier message has the same length. Missing: the
    statement without this proviso, which is false. *)
Theorem C17_reassembly_partial :
  forall (ms : sent) (x : hctx) (seq : N) (fs : list hmsg) (now : N),
    dtls_reader x seq fs -> Forall (genuine ms) fs ->
    exists F, forall fuel k m, (F <= fuel)%nat -> In (Ok m) (received fuel k now x) -> length_unique ms (hm_seq m) -> as_sent ms m.
Proof. exact reassembly_right. Qed.
Print Assumptions C17_reassembly_partial.

(** The records one endpoint sends, in any number of flights and retransmissions under the same keys, carry
    genuine fragments: whichever of them arrive, in whatever order and however often, the other endpoint's reading is
    as described by the theorems of this file. *)
Theorem C17_network :
  forall (w : hctx) (acts : list wact) (w' : hctx) (core : rcore) (recs : list bytes) (x : hctx),
    dtls_writer w -> Forall (fun a => sends_acks a = false) acts -> Forall (fun m => len (snd m) < 2 ^ 24) (queue_of acts) ->
    hl_msgSeq (x_out w) + len (queue_of acts) < 2 ^ 16 -> wact_run w acts = Some w' ->
    Forall (fun rec => In rec (out_records w')) recs ->
    same_keys (cur core) (cur (out_core w')) -> dtls_readable (len recs) core -> dtls_endpoint core (hl_msgSeq (x_out w)) recs x ->
    exists fs, dtls_reader x (hl_msgSeq (x_out w)) fs /\ Forall (genuine (numbered (hl_msgSeq (x_out w)) (queue_of acts))) fs.
Proof. exact network. Qed.
Print Assumptions C17_network.

(** Two messages in fragments of ten bytes under a key; sent twice, arriving backwards and repeated. *)
Definition msgA : bytes := seq_bytes x01 24.
Definition msgB : bytes := seq_bytes x41 13.
Definition dtls_talker (core : rcore) (max : nat) : hctx :=
  hx_of (newHandshakeLayer true (newRecordLayer true DirRead [])) (hl_of true false (fresh core []) max).
Definition talkAB : hctx := dtls_talker (keyed_core true DirWrite 2 (toy xaa)) 22.
Definition actsAB : list wact := [WaQueue x0b msgA; WaQueue x14 msgB; WaSend; WaSend].
Definition sentAB : list bytes := match wact_run talkAB actsAB with Some w => out_records w | None => [] end.
Definition arrivalsAB : list bytes := map (fun i => nth i sentAB []) [2;0;6;1;5;9;4;3]%nat.
Definition heardAB : hctx := listener (keyed_core true DirRead 2 (toy xaa)) 0 arrivalsAB.
Example C17_case :
  dtls_writer talkAB /\ wact_run talkAB actsAB <> None /\ List.length sentAB = 10%nat /\ length_unique (numbered 0 (queue_of actsAB)) 1 /\
  dtls_readable (len arrivalsAB) (keyed_core true DirRead 2 (toy xaa)) /\
  dtls_endpoint (keyed_core true DirRead 2 (toy xaa)) 0 arrivalsAB heardAB /\
  received 1 60 0 heardAB = [Ok (message 0 (x0b, msgA)); Ok (message 1 (x14, msgB))].
Proof.
  split; [|split; [vm_compute; discriminate|split; [vm_compute; reflexivity|split; [|split; [|split; [|vm_compute; reflexivity]]]]]].
  - unfold dtls_writer. repeat (split; [first [reflexivity|cbv; lia]|]). reflexivity.
  - intros n' t b t' b' Hn. destruct (N.eq_dec n' 0) as [->|]; [|lia]. intros [= <- <-] [= <- <-]. vm_compute. discriminate.
  - unfold dtls_readable. split; [reflexivity|]. split; [reflexivity|]. split; [cbv; lia|]. split; [reflexivity|]. split; [discriminate|]. split; [vm_compute; discriminate|].
    intros k [= <-]. apply toy_ok.
  - unfold dtls_endpoint. repeat split.
Qed.

(** Without the proviso: the tail of message 0 ends up in message 1. *)
Definition b0 : bytes := seq_bytes x01 8.
Definition b1 : bytes := seq_bytes x41 8.
Definition mix : sent := numbered 0 [(x0b, b0); (x14, b1)].
Definition mix_fs : list hmsg := [frag 0 x0b b0 0 4; frag 0 x0b b0 4 4; frag 1 x14 b1 0 4].
Lemma mix_wire fs : Forall (fun f => In f [frag 0 x0b b0 0 4; frag 0 x0b b0 4 4; frag 1 x14 b1 0 4; frag 1 x14 b1 4 4]) fs -> N.of_nat (List.length fs) < 2 ^ 32 ->
  dtls_reader (clear_listener 0 fs) 0 fs /\ Forall (genuine mix) fs.
Proof.
  intros H Hn. split.
  - apply clear_listener_ok; [| |exact Hn]; (eapply Forall_impl; [|exact H]); cbn beta; intros f [<-|[<-|[<-|[<-|[]]]]]; try (vm_compute; discriminate);
      unfold wire_ok; repeat (split; [vm_compute; reflexivity|]); reflexivity.
  - eapply Forall_impl; [|exact H]. cbn beta. intros f [<-|[<-|[<-|[<-|[]]]]]; eexists; (split; [reflexivity|]); (split; [reflexivity|]);
      (split; [vm_compute; discriminate|reflexivity]).
Qed.
Theorem C17_reassembly_refuted :
  exists (ms : sent) (x : hctx) (fs : list hmsg) (m : hmsg),
    dtls_reader x 0 fs /\ Forall (genuine ms) fs /\ In (Ok m) (received 1 40 0 x) /\ ~ as_sent ms m.
Proof.
  exists mix, (clear_listener 0 mix_fs), mix_fs, (message 1 (x14, part b1 0 4 ++ part b0 4 4)).
  destruct (mix_wire mix_fs) as [H1 H2]; [|vm_compute; reflexivity|].
  { repeat (apply Forall_cons; [cbn [In]; tauto|]). apply Forall_nil. }
  split; [exact H1|]. split; [exact H2|]. split; [|vm_compute; discriminate].
  assert (E : received 1 40 0 (clear_listener 0 mix_fs) = [Ok (message 0 (x0b, b0)); Ok (message 1 (x14, part b1 0 4 ++ part b0 4 4))]) by (vm_compute; reflexivity).
  rewrite E. right. left. reflexivity.
Qed.
Print Assumptions C17_reassembly_refuted.

(** ** C18: order *)

(** In any history of an endpoint -- reads of arbitrary input, flights, timers, sending, key changes -- the
    messages delivered carry consecutive numbers, so each is delivered at most once and none is skipped. *)
Theorem C18_in_order :
  forall (ops : list hop) (x : hctx), hl_datagram (x_in x) = true ->
    map hm_seq (deliveries x ops) = numbers_from (hl_msgSeq (x_in x)) (List.length (deliveries x ops)).
Proof. exact deliveries_in_order. Qed.
Print Assumptions C18_in_order.

(** Messages in one piece, arriving in any order with loss and repetition: exactly those before the first
    missing one are delivered. *)
Theorem C18_exactly_once :
  forall (x : hctx) (seq : N) (fs : list hmsg) (now : N), dtls_reader x seq fs -> Forall unfragmented fs ->
    exists F out, (forall fuel k, (F <= fuel)%nat -> (F <= k)%nat -> received fuel k now x = map Ok out) /\
      map hm_seq out = numbers_from seq (List.length out) /\ Forall (fun m => In m fs) out /\
      ~ Exists (fun f => hm_seq f = seq + N.of_nat (List.length out)) fs.
Proof. exact whole_progress. Qed.
Print Assumptions C18_exactly_once.

Definition whole_of (s : N) (b : bytes) : hmsg := message s (x0b, b).
Definition fs18 : list hmsg := [whole_of 9 b0; whole_of 7 b1; whole_of 5 b0; whole_of 5 b0; whole_of 6 b1; whole_of 6 b1].
Example C18_case :
  dtls_reader (clear_listener 5 fs18) 5 fs18 /\ Forall unfragmented fs18 /\
  received 1 60 0 (clear_listener 5 fs18) = [Ok (whole_of 5 b0); Ok (whole_of 6 b1); Ok (whole_of 7 b1)] /\
  deliveries (clear_listener 5 fs18) (repeat (HRead 1 0) 60) = [whole_of 5 b0; whole_of 6 b1; whole_of 7 b1].
Proof.
  split; [|split; [|split; vm_compute; reflexivity]].
  - apply clear_listener_ok; [| |vm_compute; reflexivity].
    + repeat constructor.
    + repeat constructor; vm_compute; discriminate.
  - repeat constructor.
Qed.

(** ** C19: progress *)

(** If only fragments of the expected message arrive, in any order, with loss, repetition and overlaps, it is
    delivered exactly when every byte of it has arrived. Missing: fragments of later messages in between, with
    which it is false. *)
Theorem C19_progress_partial :
  forall (ms : sent) (x : hctx) (seq : N) (fs : list hmsg) (now : N) (t : byte) (b : bytes),
    dtls_reader x seq fs -> ms seq = Some (t, b) -> Forall (fun f => genuine ms f /\ hm_seq f = seq) fs ->
    exists F, forall fuel k, (F <= fuel)%nat -> (F <= k)%nat ->
      (covers fs (len b) -> received fuel k now x = [Ok (message seq (t, b))]) /\ (~ covers fs (len b) -> received fuel k now x = []).
Proof. exact single_progress. Qed.
Print Assumptions C19_progress_partial.

Lemma within i o n f : hm_offset f = o -> len (hm_body f) = n -> o <= i < o + n -> hm_offset f <= i < hm_offset f + len (hm_body f).
Proof. now intros -> ->. Qed.

Definition fs19 : list hmsg := [frag 0 x0b b0 3 3; frag 0 x0b b0 5 3; frag 0 x0b b0 3 3; frag 0 x0b b0 0 4].
Example C19_case :
  dtls_reader (clear_listener 0 fs19) 0 fs19 /\ Forall (fun f => genuine mix f /\ hm_seq f = 0) fs19 /\ covers fs19 (len b0) /\
  received 1 60 0 (clear_listener 0 fs19) = [Ok (message 0 (x0b, b0))] /\
  received 1 60 0 (clear_listener 0 (tl fs19)) = [Ok (message 0 (x0b, b0))] /\
  received 1 60 0 (clear_listener 0 (tl (tl fs19))) = [].
Proof.
  split; [apply clear_listener_ok; [repeat constructor|repeat constructor; vm_compute; discriminate|vm_compute; reflexivity]|].
  split; [|split; [|split; [vm_compute; reflexivity|split; vm_compute; reflexivity]]].
  - repeat constructor; eexists; (split; [reflexivity|]); (split; [reflexivity|]); (split; [vm_compute; discriminate|reflexivity]).
  - split; [discriminate|]. change (len b0) with 8. intros i Hi. destruct (N.lt_ge_cases i 4) as [H|H].
    + do 3 right. left. apply (within i 0 4); [reflexivity|reflexivity|lia].
    + destruct (N.lt_ge_cases i 5) as [H'|H'].
      * left. apply (within i 3 3); [reflexivity|reflexivity|lia].
      * right. left. apply (within i 5 3); [reflexivity|reflexivity|lia].
Qed.

(** All of message 0 has arrived, but with a fragment of message 1 in between it is never delivered. *)
Definition stuck_fs : list hmsg := [frag 0 x0b b0 4 4; frag 1 x14 b1 0 4; frag 0 x0b b0 0 4].
Theorem C19_progress_refuted :
  exists (ms : sent) (x : hctx) (fs : list hmsg) (t : byte) (b : bytes),
    dtls_reader x 0 fs /\ Forall (genuine ms) fs /\ ms 0 = Some (t, b) /\ covers (filter (fun f => hm_seq f =? 0) fs) (len b) /\
    forall now, exists F, forall fuel k, (F <= fuel)%nat -> received fuel k now x = [].
Proof.
  exists mix, (clear_listener 0 stuck_fs), stuck_fs, x0b, b0.
  destruct (mix_wire stuck_fs) as [H1 H2]; [|vm_compute; reflexivity|].
  { repeat (apply Forall_cons; [cbn [In]; tauto|]). apply Forall_nil. }
  split; [exact H1|]. split; [exact H2|]. split; [reflexivity|]. split.
  - split; [vm_compute; discriminate|]. change (len b0) with 8. intros i Hi. destruct (N.lt_ge_cases i 4) as [H|H].
    + right. left. apply (within i 0 4); [reflexivity|reflexivity|lia].
    + left. apply (within i 4 4); [reflexivity|reflexivity|lia].
  - intros now. destruct (reader_reads _ _ _ now H1) as (F & HF). exists F. intros fuel k Hf.
    destruct (HF fuel k Hf) as (k' & _ & _ & ->). do 4 (destruct k' as [|k']; [reflexivity|]). reflexivity.
Qed.
Print Assumptions C19_progress_refuted.

(** ** C20: no crash *)

(** Fragments that stay within the message they claim to belong to do not crash the reader, whatever their
    numbers, lengths and order. Missing: fragments that run past the end, which can. *)
Theorem C20_no_panic_partial :
  forall (x : hctx) (seq : N) (fs : list hmsg) (now : N), dtls_reader x seq fs -> Forall sane fs ->
    exists F, forall fuel k, (F <= fuel)%nat -> ~ In Panic (received fuel k now x).
Proof. exact sane_no_panic. Qed.
Print Assumptions C20_no_panic_partial.

Definition fs20 : list hmsg := [mkHm x0b 3 b0 true 0 20 None; mkHm x0b 3 b1 true 100 108 None; mkHm x14 3 b1 true 8 16 None; mkHm x0b 2 [] true 5 5 None].
Example C20_case :
  dtls_reader (clear_listener 3 fs20) 3 fs20 /\ Forall sane fs20 /\ received 1 20 0 (clear_listener 3 fs20) = repeat (Err (EMsg "Mismatched DTLS length")) 19.
Proof.
  split; [apply clear_listener_ok; [repeat constructor|repeat constructor; vm_compute; discriminate|vm_compute; reflexivity]|].
  split; [unfold fs20; repeat (apply Forall_cons; [vm_compute; discriminate|]); apply Forall_nil|vm_compute; reflexivity].
Qed.

(** Two fragments of one message, the first longer than the message: slicing out of bounds. *)
Definition over_fs : list hmsg := [mkHm x0b 0 (seq_bytes x00 20) true 0 10 None; mkHm x0b 0 b0 true 15 10 None].
Theorem C20_overlong_refuted :
  exists (x : hctx) (fs : list hmsg), dtls_reader x 0 fs /\ received 1 40 0 x = [Panic].
Proof.
  exists (clear_listener 0 over_fs), over_fs. split; [|vm_compute; reflexivity].
  apply clear_listener_ok; [repeat constructor|repeat constructor; vm_compute; discriminate|vm_compute; reflexivity].
Qed.
Print Assumptions C20_overlong_refuted.

(** An alert of one byte: the log statement indexes its second byte. Both transports. *)
Theorem C20_short_alert_refuted :
  forall dg : bool, exists (h : hlayer) (rec : bytes),
    h = newHandshakeLayer dg (newRecordLayer dg DirRead [RBytes rec]) /\
    received 3 40 0 (hx_of h (newHandshakeLayer dg (newRecordLayer dg DirWrite []))) = [Panic].
Proof.
  intros [|]; eexists; [exists (map b8 [21; 254;253; 0;0;0;0;0;0;0;0; 0;1; 2])|exists (map b8 [21; 3;3; 0;1; 2])]; (split; [reflexivity|vm_compute; reflexivity]).
Qed.
Print Assumptions C20_short_alert_refuted.

(** ** C21: acknowledgements *)

(** A history of an endpoint under one set of keys, up to the first call that fails: a fragment marked as
    acknowledged was acknowledged, by the number of a record that carried exactly these bytes, and no other
    record sent has that number. Missing: flights that span a key change, and the numbers the peer
    reports, with which it is false. *)
Theorem C21_ack_sound_partial :
  forall (x : hctx) (acts : list wact) (x' : hctx) (s : sfrag),
    dtls_writer x -> Forall (fun m => len (snd m) < 2 ^ 24) (queue_of acts) ->
    hl_msgSeq (x_out x) + len (queue_of acts) < 2 ^ 32 - 1 -> wact_run x acts = Some x' ->
    In s (x_sent x') -> sf_acked s = true ->
    exists now nums rec f, In (WaAck now (ack_bytes nums)) acts /\ In (record_number rec) nums /\ In rec (out_records x') /\
      carries (cur (out_core x')) rec f /\ entry_for s f /\
      forall rec', In rec' (out_records x') -> record_number rec' = record_number rec -> rec' = rec.
Proof. exact acks_sound. Qed.
Print Assumptions C21_ack_sound_partial.

Definition acts21 : list wact :=
  [WaQueue x0b msgA; WaQueue x14 msgB; WaSend; WaAck 5 (ack_bytes [2 * 2 ^ 48 + 1; 2 * 2 ^ 48 + 4; 77]); WaTimers (fun n => 2 * n)%nat 900].
Example C21_case :
  dtls_writer talkAB /\
  match wact_run talkAB acts21 with
  | Some x => map (fun s => (sf_seq s, sf_offset s, sf_len s)) (filter sf_acked (x_sent x)) = [(0, 10%nat, 10%nat); (1, 10%nat, 3%nat)] /\ List.length (x_sent x) = 11%nat
  | None => False
  end.
Proof.
  split; [unfold dtls_writer; repeat (split; [first [reflexivity|cbv; lia]|]); reflexivity|]. vm_compute. split; reflexivity.
Qed.

(** A message queued before the keys change is logged under a number of the new epoch, which the next record
    bears: the peer gets and acknowledges only that one, and the first message counts as acknowledged too, is
    not sent again, and is lost. *)
Definition flight : hctx :=
  let x := dtls_talker (clear_core DirWrite) 1200 in
  let x := fst (hstep x (HQueue x02 b0)) in
  let x := fst (hstep x (HRekeyOut 2 (toy xaa) iv12)) in
  let x := fst (hstep x (HQueue x08 b1)) in
  fst (hstep x HSend).
Theorem C21_key_change_refuted :
  exists (x x' : hctx) (rec0 rec1 : bytes),
    x = flight /\ out_records x = [rec0; rec1] /\
    carries nullCs rec0 (frag 0 x02 b0 0 8) /\ carries (cur (out_core x)) rec1 (frag 1 x08 b1 0 8) /\
    record_number rec0 <> record_number rec1 /\
    processAck 5 x (ack_bytes [record_number rec1]) = (x', Ok tt) /\
    Exists (fun s => entry_for s (frag 0 x02 b0 0 8) /\ sf_acked s = true) (x_sent x') /\ snd (sendQueued x') = Ok 0%nat.
Proof.
  exists flight, (fst (processAck 5 flight (ack_bytes [record_number (nth 1 (out_records flight) [])]))), (nth 0 (out_records flight) []), (nth 1 (out_records flight) []).
  split; [reflexivity|]. split; [vm_compute; reflexivity|].
  split; [replace (nth 0 (out_records flight) []) with (clear_record 0 (frag 0 x02 b0 0 8)) by (vm_compute; reflexivity); apply clear_carries; [reflexivity..| |]; vm_compute; first [reflexivity|discriminate]|].
  split. { exists (keyed_core true DirWrite 2 (toy xaa)), (r_cipher (keyed_core true DirWrite 2 (toy xaa))). eexists. split; [vm_compute; reflexivity|]. split; [reflexivity|]. repeat split. }
  split; [vm_compute; discriminate|]. split; [vm_compute; reflexivity|].
  split; [|vm_compute; reflexivity].
  vm_compute. apply Exists_cons_hd. split; [|reflexivity]. repeat split.
Qed.
Print Assumptions C21_key_change_refuted.

(** The reader sees number 0 in every clear record, and acknowledges that: of a message in three records the
    second arrives, the first counts as acknowledged and is not sent again. *)
Definition hello21 : hctx := dtls_talker (clear_core DirWrite) 22.
Definition client21 : hctx := match wact_run hello21 [WaQueue x01 msgA; WaSend] with Some x => x | None => hello21 end.
(** The peer reads what arrives until its ACK timer has expired. *)
Definition server21 (arrives : list bytes) : hctx :=
  let h := listener (clear_core DirRead) 0 arrives in
  let x := set_out h (hl_of true true (fresh (clear_core DirWrite) []) initialMtu) in
  fst (hstep (fst (hstep x (HRead 5 0))) (HTimers (fun n => 2 * n)%nat 1000)).
Theorem C21_clear_refuted :
  exists (x x' x'' : hctx) (recs : list bytes) (rec1 : bytes),
    wact_run hello21 [WaQueue x01 msgA; WaSend] = Some x /\
    Forall2 (carries nullCs) (out_records x) [frag 0 x01 msgA 0 10; frag 0 x01 msgA 10 10; frag 0 x01 msgA 20 4] /\
    nth_error (out_records x) 1 = Some rec1 /\
    fst (hstep (fst (hstep x (HInput (map RBytes (out_records (server21 [rec1])))))) (HRead 5 1000)) = x' /\
    Exists (fun s => entry_for s (frag 0 x01 msgA 0 10) /\ sf_acked s = true) (x_sent x') /\
    sendQueued x' = (x'', Ok 2%nat) /\ out_records x'' = out_records x' ++ recs /\
    Forall2 (carries nullCs) recs [frag 0 x01 msgA 10 10; frag 0 x01 msgA 20 4].
Proof.
  set (x' := fst (hstep (fst (hstep client21 (HInput (map RBytes (out_records (server21 [nth 1 (out_records client21) []])))))) (HRead 5 1000))).
  assert (H : forall recs fs, recs = map (fun p => clear_record (fst p) (snd p)) fs -> Forall (fun p => fst p < 100 /\ len (hm_marshal (snd p)) <= 100) fs -> Forall2 (carries nullCs) recs (map snd fs)).
  { intros recs fs -> Hf. induction Hf as [|[n f] fs [Hn Hl] Hf IH]; cbn [map]; constructor; auto. cbn [fst snd] in *. apply clear_carries; try reflexivity.
    - change (2 ^ 48 - 1) with 281474976710655. lia.
    - change (2 ^ 14) with 16384. lia. }
  exists client21, x', (fst (sendQueued x')), (skipn 5 (out_records (fst (sendQueued x')))), (nth 1 (out_records client21) []).
  split; [vm_compute; reflexivity|].
  split. { apply (H _ [(0, frag 0 x01 msgA 0 10); (1, frag 0 x01 msgA 10 10); (2, frag 0 x01 msgA 20 4)]); [vm_compute; reflexivity|repeat constructor; vm_compute; discriminate]. }
  split; [vm_compute; reflexivity|]. split; [reflexivity|].
  split. { vm_compute. apply Exists_cons_hd. split; [|reflexivity]. repeat split. }
  split; [vm_compute; reflexivity|]. split; [vm_compute; reflexivity|].
  apply (H _ [(5, frag 0 x01 msgA 10 10); (6, frag 0 x01 msgA 20 4)]); [vm_compute; reflexivity|repeat constructor; vm_compute; discriminate].
Qed.
Print Assumptions C21_clear_refuted.

(** ** C22: retransmission *)

(** A successful transmission of the flight writes records with, for each queued message, everything that no
    acknowledgement covers and nothing that one covers, and leaves the queue for the next time. *)
Theorem C22_retransmission :
  forall (x x' : hctx) (n : nat),
    hl_datagram (x_out x) = true -> r_datagram (out_core x) = true -> Forall (queued_ok (out_core x)) (hl_queued (x_out x)) ->
    sendQueued x = (x', Ok n) ->
    exists recs fss, out_records x' = out_records x ++ recs /\ n = List.length recs /\ hl_queued (x_out x') = hl_queued (x_out x) /\
      Forall2 (unacked_of (x_sent x)) (hl_queued (x_out x)) fss /\
      Forall2 (fun rec '(m, f) => carries (cipher_of (out_core x) m) rec f) recs (concat (map (fun '(m, fs) => map (pair m) fs) (combine (hl_queued (x_out x)) fss))).
Proof. exact retransmission. Qed.
Print Assumptions C22_retransmission.

(** And it does succeed while sequence numbers last, for any usable record size. *)
Theorem C22_sending :
  forall x : hctx, hl_datagram (x_out x) = true -> (12 < hl_max (x_out x))%nat -> Forall (queued_ok (out_core x)) (hl_queued (x_out x)) ->
    Forall (fun m => len (hm_body m) <= 2 ^ 24) (hl_queued (x_out x)) ->
    dtls_writable (body_bytes (hl_queued (x_out x))) (hl_max (x_out x)) (out_core x) ->
    exists x' n, sendQueued x = (x', Ok n).
Proof. exact retransmission_ok. Qed.
Print Assumptions C22_sending.

(** An acknowledgement ends retransmission only when every byte of every queued message is acknowledged. Otherwise
    the flight stays queued and is due again after the timeout. *)
Theorem C22_ack_keeps :
  forall (clock now : N) (x x' : hctx) (data : bytes),
    hl_datagram (x_out x) = true -> r_datagram (out_core x) = true -> Forall (queued_ok (out_core x)) (hl_queued (x_out x)) ->
    reachable clock (x_timers x) -> processAck now x data = (x', Ok tt) ->
    (hl_queued (x_out x') = hl_queued (x_out x) /\ In (mkT retransmitTimerLabel (Some CbRetransmit) (now + x_timeout x)) (armed (x_timers x'))) \/
    (hl_queued (x_out x') = [] /\ Forall (acknowledged (x_sent x')) (hl_queued (x_out x))).
Proof. intros clock now x x' data. exact (ack_keeps clock now x data x'). Qed.
Print Assumptions C22_ack_keeps.

(** The two messages of [acts21] with two fragments acknowledged: the other three go out again. *)
Definition x22 : hctx := match wact_run talkAB acts21 with Some x => x | None => talkAB end.
Example C22_case :
  hl_datagram (x_out x22) = true /\ r_datagram (out_core x22) = true /\ (12 < hl_max (x_out x22))%nat /\
  Forall (queued_ok (out_core x22)) (hl_queued (x_out x22)) /\ dtls_writable (body_bytes (hl_queued (x_out x22))) (hl_max (x_out x22)) (out_core x22) /\
  List.length (filter sf_acked (x_sent x22)) = 2%nat /\ snd (sendQueued x22) = Ok 3%nat.
Proof.
  split; [vm_compute; reflexivity|]. split; [vm_compute; reflexivity|]. split; [vm_compute; lia|].
  split. { assert (H : Forall (fun m => hm_datagram m = true /\ hm_cipher m = Some 1%nat) (hl_queued (x_out x22))) by (vm_compute; repeat constructor).
    eapply Forall_impl; [|exact H]. intros m [H1 H2]. split; [exact H1|]. exists 1%nat. split; [exact H2|vm_compute; lia]. }
  split; [|split; vm_compute; reflexivity].
  split; [reflexivity|]. split; [reflexivity|]. split; [left; reflexivity|].
  intros i Hi. assert (H3 : List.length (r_heap (out_core x22)) = 2%nat) by (vm_compute; reflexivity). rewrite H3 in Hi.
  destruct i as [|[|i]]; [| |lia]; (split; [vm_compute; discriminate|]).
  - change (c_aead (get_cs (out_core x22) 0)) with (@None aead). vm_compute. discriminate.
  - change (c_aead (get_cs (out_core x22) 1)) with (Some (toy xaa)). split; [apply toy_ok|]. split; [change (c_iv (get_cs (out_core x22) 1)) with iv12; vm_compute; lia|vm_compute; discriminate].
Qed.

(** The flight of five fragments: acknowledging four of them keeps it, acknowledging the fifth too ends it. *)
Definition y22 : hctx := match wact_run talkAB [WaQueue x0b msgA; WaQueue x14 msgB; WaSend] with Some x => x | None => talkAB end.
Definition acked22 (l : list N) : hctx * res unit := processAck 20 y22 (ack_bytes (map (N.add (2 * 2 ^ 48)) l)).
Example C22_ack_case :
  hl_datagram (x_out y22) = true /\ r_datagram (out_core y22) = true /\ Forall (queued_ok (out_core y22)) (hl_queued (x_out y22)) /\
  reachable 0 (x_timers y22) /\
  (let '(x, r) := acked22 [0; 1; 2; 4] in r = Ok tt /\ List.length (hl_queued (x_out x)) = 2%nat) /\
  (let '(x, r) := acked22 [0; 1; 2; 3; 4] in r = Ok tt /\ hl_queued (x_out x) = []).
Proof.
  split; [vm_compute; reflexivity|]. split; [vm_compute; reflexivity|].
  split. { assert (H : Forall (fun m => hm_datagram m = true /\ hm_cipher m = Some 1%nat) (hl_queued (x_out y22))) by (vm_compute; repeat constructor).
    eapply Forall_impl; [|exact H]. intros m [H1 H2]. split; [exact H1|]. exists 1%nat. split; [exact H2|vm_compute; lia]. }
  split. { assert (E : x_timers y22 = newTimerSet) by (vm_compute; reflexivity). rewrite E. apply re_new. }
  split; vm_compute; split; reflexivity.
Qed.
