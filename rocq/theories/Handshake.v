(** Model of /repo/handshake-layer.go and /repo/dtls.go: handshake messages over records, DTLS fragments,
    acknowledgements and retransmission. *)
From Verif Require Import Base Syntax Frame Record Timer.

(** Sequencing of calls that may change the state even when they fail. *)
Definition sbind {S A B} (p : S * res A) (f : S -> A -> S * res B) : S * res B :=
  match p with (s, Ok a) => f s a | (s, Err e) => (s, Err e) | (s, Panic) => (s, Panic) | (s, Fuel) => (s, Fuel) end.
Notation "'call' s , x <- a ; b" := (sbind a (fun s x => b))
  (at level 200, s name, x name, a at level 100, b at level 200).
Notation "'call' s , ' x <- a ; b" := (sbind a (fun s x => b))
  (at level 200, s name, x strict pattern, a at level 100, b at level 200).

(** ** Messages *)

(** handshake-layer.go:9-13 *)
Definition handshakeHeaderLen (datagram : bool) : nat := if datagram then 12 else 4.
Definition maxHandshakeMessageLen : N := 2 ^ 24.
(** dtls.go:10-11 *)
Definition initialMtu : nat := 1200.
Definition initialTimeout : N := 100.

(** handshake-layer.go:31-39. [hm_cipher] names a cipher state of the writing record layer; [None] is nil. *)
Record hmsg := mkHm {
  hm_type : byte; hm_seq : N; hm_body : bytes; hm_datagram : bool; hm_offset : N; hm_length : N; hm_cipher : option nat }.

(** handshake-layer.go:45-68 and encodeUint 538-544 *)
Definition hm_marshal (m : hmsg) : bytes :=
  [hm_type m] ++ be 3 (hm_length m) ++
  (if hm_datagram m then be 2 (hm_seq m) ++ be 3 (hm_offset m) ++ be 3 (len (hm_body m)) else []) ++ hm_body m.

(** handshake-layer.go:133-154: the frame length is in the last three header bytes. *)
Definition handshakeFraming (datagram : bool) : framing :=
  {| headerLen := handshakeHeaderLen datagram;
     frameLen := fun hdr => Ok (N.to_nat (unbe (skipn (List.length hdr - 3) hdr))) |}.

(** ** State *)

(** handshake-layer.go:120-131, without the back pointer [ctx] and the unused [sent]. *)
Record hlayer := mkHl {
  hl_nonblocking : bool; hl_conn : rlayer; hl_frame : freader; hl_datagram : bool; hl_msgSeq : N;
  hl_queued : list hmsg; hl_recvd : list N; hl_max : nat }.

(** handshake-layer.go:156-174 *)
Definition newHandshakeLayer (datagram : bool) (conn : rlayer) : hlayer :=
  mkHl false conn (newFrameReader (handshakeFraming datagram)) datagram 0 [] []
       (if datagram then initialMtu else N.to_nat maxFragmentLen).

(** dtls.go:20-26 *)
Record sfrag := mkSf { sf_seq : N; sf_offset : nat; sf_len : nat; sf_record : N; sf_acked : bool }.

(** The callbacks that are ever armed: dtls.go:55-57, 124-126, 160 and conn.go:597-599. *)
Inductive hcb := CbRetransmit | CbSendAck.

(** state-machine.go:71-79 (HandshakeContext), the fields used here. *)
Record hctx := mkHx {
  x_in : hlayer; x_out : hlayer; x_sent : list sfrag; x_waiting : bool; x_timers : tset hcb; x_timeout : N }.

Definition set_conn (h : hlayer) (c : rlayer) : hlayer :=
  mkHl (hl_nonblocking h) c (hl_frame h) (hl_datagram h) (hl_msgSeq h) (hl_queued h) (hl_recvd h) (hl_max h).
Definition set_frame (h : hlayer) (f : freader) : hlayer :=
  mkHl (hl_nonblocking h) (hl_conn h) f (hl_datagram h) (hl_msgSeq h) (hl_queued h) (hl_recvd h) (hl_max h).
Definition set_queue (h : hlayer) (seq : N) (q : list hmsg) : hlayer :=
  mkHl (hl_nonblocking h) (hl_conn h) (hl_frame h) (hl_datagram h) seq q (hl_recvd h) (hl_max h).
Definition set_recvd (h : hlayer) (r : list N) : hlayer :=
  mkHl (hl_nonblocking h) (hl_conn h) (hl_frame h) (hl_datagram h) (hl_msgSeq h) (hl_queued h) r (hl_max h).
Definition set_in (x : hctx) (h : hlayer) : hctx := mkHx h (x_out x) (x_sent x) (x_waiting x) (x_timers x) (x_timeout x).
Definition set_out (x : hctx) (h : hlayer) : hctx := mkHx (x_in x) h (x_sent x) (x_waiting x) (x_timers x) (x_timeout x).
Definition set_sent (x : hctx) (l : list sfrag) : hctx := mkHx (x_in x) (x_out x) l (x_waiting x) (x_timers x) (x_timeout x).
Definition set_waiting (x : hctx) (b : bool) : hctx := mkHx (x_in x) (x_out x) (x_sent x) b (x_timers x) (x_timeout x).
Definition set_timers (x : hctx) (t : tset hcb) : hctx := mkHx (x_in x) (x_out x) (x_sent x) (x_waiting x) t (x_timeout x).

(** handshake-layer.go:103-118 HandshakeMessageFromBody, given the message's type and marshalled body.
    [msgSeq] and [length] are uint32. *)
Definition messageFromBody (h : hlayer) (ty : byte) (body : bytes) : hlayer * hmsg :=
  (set_queue h ((hl_msgSeq h + 1) mod 2 ^ 32) (hl_queued h),
   mkHm ty (hl_msgSeq h) body (hl_datagram h) 0 (len body mod 2 ^ 32) None).

(** ** Writing *)

(** dtls.go:196-222 *)
Definition fragmentAcked (sent : list sfrag) (seq : N) (offset fraglen : nat) : bool :=
  existsb (fun f => sf_acked f && (sf_seq f =? seq) && (sf_offset f <=? offset)%nat && (offset + fraglen <=? sf_offset f + sf_len f)%nat) sent.

(** handshake-layer.go:427-494 (on [hOut]). No room for a body byte is an explicit panic or a slice with its
    end before its start. The record number remembered is that of the layer's current cipher; the record is
    written under the message's. *)
Definition writeFragment (x : hctx) (m : hmsg) (start room : nat) : hctx * res (bool * nat) :=
  let h := x_out x in
  let hdrlen := if hm_datagram m then handshakeHeaderLen true else if (start =? 0)%nat then handshakeHeaderLen false else 0%nat in
  if (room <=? hdrlen)%nat then (x, Panic) else
  let room := (room - hdrlen)%nat in
  let bodylen := Nat.min (List.length (hm_body m) - start) room in
  let body := firstn bodylen (skipn start (hm_body m)) in
  let next := (start + bodylen)%nat in
  if fragmentAcked (x_sent x) (hm_seq m) start bodylen then (x, Ok (false, next)) else
  let buf := if (0 <? hdrlen)%nat
             then hm_marshal (mkHm (hm_type m) (hm_seq m) body (hm_datagram m) (N.of_nat start) (hm_length m) (hm_cipher m))
             else body in
  let pt := mkPt rtHandshake 0 0 buf in
  if hl_datagram h then
    let x := set_sent x (x_sent x ++ [mkSf (hm_seq m) start (List.length body) (combineSeq (get_cs (l_core (hl_conn h)) (r_cipher (l_core (hl_conn h)))) true) false]) in
    match hm_cipher m with
    | None => (x, Panic)
    | Some c =>
        let '(conn, r) := writeRecordWithPadding (hl_conn h) pt c 0 in
        (set_out x (set_conn h conn), do _ <- r; Ok (true, next))
    end
  else
    let '(conn, r) := writeRecord (hl_conn h) pt in
    (set_out x (set_conn h conn), do _ <- r; Ok (true, next)).

(** handshake-layer.go:496-522; [fuel] bounds the loop (one more than the body's length suffices). *)
Fixpoint writeMessage_loop (fuel : nat) (x : hctx) (m : hmsg) (start written : nat) : hctx * res nat :=
  match fuel with
  | O => (x, Fuel)
  | S fuel =>
      call x, '(wrote, start) <- writeFragment x m start (hl_max (x_out x));
      let written := if (wrote : bool) then S written else written in
      if (List.length (hm_body m) <=? start)%nat then (x, Ok written) else writeMessage_loop fuel x m start written
  end.
Definition writeMessage (x : hctx) (m : hmsg) : hctx * res nat :=
  if maxHandshakeMessageLen <? len (hm_body m) then (x, Err (EMsg "Tried to write a handshake message that's too long"))
  else writeMessage_loop (S (List.length (hm_body m))) x m 0 0.

(** handshake-layer.go:524-536 *)
Fixpoint writeMessages (x : hctx) (ms : list hmsg) : hctx * res nat :=
  match ms with
  | [] => (x, Ok 0%nat)
  | m :: ms => call x, n <- writeMessage x m; call x, k <- writeMessages x ms; (x, Ok (n + k)%nat)
  end.

(** handshake-layer.go:422-425 *)
Definition clearQueued (x : hctx) : hctx := set_out x (set_queue (x_out x) (hl_msgSeq (x_out x)) []).

(** handshake-layer.go:403-411 *)
Definition queueMessage (x : hctx) (m : hmsg) : hctx * res unit :=
  let h := x_out x in
  if hl_datagram h then
    let m := mkHm (hm_type m) (hm_seq m) (hm_body m) (hm_datagram m) (hm_offset m) (hm_length m) (Some (r_cipher (l_core (hl_conn h)))) in
    (set_out x (set_queue h (hl_msgSeq h) (hl_queued h ++ [m])), Ok tt)
  else let '(x, r) := writeMessages x [m] in (x, do _ <- r; Ok tt).

(** handshake-layer.go:413-420 *)
Definition sendQueued (x : hctx) : hctx * res nat :=
  let '(x, r) := writeMessages x (hl_queued (x_out x)) in
  (if hl_datagram (x_out x) then x else clearQueued x, r).

(** ** Timers, acknowledgements and retransmission *)

(** dtls.go:14-17 *)
Definition retransmitTimerLabel : string := "handshake retransmit".
Definition ackTimerLabel : string := "ack timer".

(** dtls.go:55-57, 122-128: arm the retransmission timer. *)
Definition armRetransmit (now : N) (x : hctx) : hctx :=
  set_timers x (start now retransmitTimerLabel CbRetransmit (x_timeout x) (x_timers x)).

(** dtls.go:50-61 *)
Definition handshakeRetransmit (now : N) (x : hctx) : hctx * res unit :=
  call x, _ <- sendQueued x; (armRetransmit now x, Ok tt).

(** dtls.go:28-30 DtlsAck: a slice of uint64 with a two-byte length. *)
Definition ack_ty : ty := TStruct (FCons (mkOpts false false 2 0 0 false false false) (TSlice (TUint U64)) FNil).
Definition ack_val (l : list N) : val := VList [VList (map VUint l)].

(** dtls.go:63-85. The record numbers are uint64. *)
Definition sendAck (x : hctx) : hctx * res unit :=
  let toack := firstn ((initialMtu - 2) / 8) (hl_recvd (x_in x)) in
  match marshal (TPtr (TPtr ack_ty)) (VPtr (VPtr (ack_val toack))) with
  | Ok body =>
      let '(conn, r) := writeRecord (hl_conn (x_out x)) (mkPt rtAck 0 0 body) in
      (set_out x (set_conn (x_out x) conn), r)
  | Err e => (x, Err e) | Panic => (x, Panic) | Fuel => (x, Fuel)
  end.

(** The record numbers of a decoded DtlsAck. *)
Definition uint_of (v : val) : N := match v with VUint n => n | _ => 0 end.
Definition ack_numbers (v : val) : list N :=
  match v with VPtr (VList [VList l]) => map uint_of l | _ => [] end.

(** dtls.go:102-110 *)
Definition mark_acked (nums : list N) (sent : list sfrag) : list sfrag :=
  map (fun f => mkSf (sf_seq f) (sf_offset f) (sf_len f) (sf_record f) (sf_acked f || existsb (fun r => r =? sf_record f) nums)) sent.

(** dtls.go:87-129 *)
Definition processAck (now : N) (x : hctx) (data : bytes) : hctx * res unit :=
  let x := set_timers x (cancel retransmitTimerLabel (x_timers x)) in
  match unmarshal (List.length data) (TPtr ack_ty) data with
  | Ok (v, read) =>
      if negb (List.length data =? read)%nat then (x, Err (EMsg "Invalid encoding: Extra data not consumed")) else
      let x := set_sent x (mark_acked (ack_numbers v) (x_sent x)) in
      call x, count <- sendQueued x;
      if (count =? 0)%nat then (clearQueued x, Ok tt) else (armRetransmit now x, Ok tt)
  | Err e => (x, Err e) | Panic => (x, Panic) | Fuel => (x, Fuel)
  end.

(** dtls.go:135-162 *)
Definition receivedHandshakeMessage (now : N) (x : hctx) : hctx :=
  if negb (hl_datagram (x_in x)) then x else
  let x := if x_waiting x
           then set_waiting (set_timers (clearQueued x) (cancel retransmitTimerLabel (x_timers x))) false
           else x in
  if getTimer ackTimerLabel (x_timers x) then x
  else set_timers x (start now ackTimerLabel CbSendAck (x_timeout x / 4) (x_timers x)).

(** dtls.go:164-181 *)
Definition receivedEndOfFlight (x : hctx) : hctx :=
  if negb (hl_datagram (x_in x)) then x else
  let h := x_in x in
  let x := set_in x (set_recvd (set_queue h (hl_msgSeq h) []) []) in
  set_timers (set_waiting x true) (cancel ackTimerLabel (x_timers x)).

(** dtls.go:183-194; the error of [sendAck] is dropped. *)
Definition receivedFinalFlight (x : hctx) : hctx * res unit :=
  if negb (hl_datagram (x_in x)) then (x, Ok tt) else
  let x := set_timers x (cancel ackTimerLabel (x_timers x)) in
  match sendAck x with
  | (x, Panic) => (x, Panic)
  | (x, _) => (x, Ok tt)
  end.

(** timer.go:58-76 with the callbacks above, as run by conn.go:446 and 767. *)
Definition fire (now : N) (c : hcb) (x : hctx) : hctx * res unit :=
  match c with CbRetransmit => handshakeRetransmit now x | CbSendAck => sendAck x end.
Definition checkTimers (grow : nat -> nat) (now : N) (x : hctx) : hctx * res unit :=
  check x_timers (fun t x => set_timers x t) (fire now) grow now x.

(** ** Reading *)

(** handshake-layer.go:248-258: if every queued fragment is at or before [seq], the last one stays. *)
Fixpoint drop_delivered (seq : N) (q : list hmsg) : list hmsg :=
  match q with
  | [] => []
  | m :: q' => match q' with [] => q | _ => if seq <? hm_seq m then q else drop_delivered seq q' end
  end.

(** handshake-layer.go:306-311 and 269-274: a message in a single fragment. *)
Definition whole (m : hmsg) : bool := (hm_offset m =? 0) && (hm_length m =? len (hm_body m)).

(** [copy(buf[offset:], body)] for an offset within the buffer. *)
Definition copy_at (buf : bytes) (offset : nat) (body : bytes) : bytes :=
  firstn offset buf ++ firstn (List.length buf - offset) body ++ skipn (offset + List.length body) buf.

(** handshake-layer.go:316-344: the loop over the queue; [fin] is the reassembled body. Offsets and lengths are
    below 2^24, so the uint32 sums do not wrap. *)
Fixpoint assemble (seq length : N) (fs : list hmsg) (buf : bytes) (fin : N) : res (option bytes) :=
  match fs with
  | [] => Ok None
  | f :: fs =>
      if seq <? hm_seq f then Ok None else
      if negb (hm_length f =? len buf) then Err (EMsg "Mismatched DTLS length") else
      if fin <? hm_offset f then Ok None else
      if fin <? hm_offset f + len (hm_body f) then
        if len buf <? hm_offset f then Panic else
        let buf := copy_at buf (N.to_nat (hm_offset f)) (hm_body f) in
        let fin := hm_offset f + len (hm_body f) in
        if fin =? length then Ok (Some buf) else assemble seq length fs buf fin
      else assemble seq length fs buf fin
  end.

(** handshake-layer.go:296-347 on the expected number and the queue. *)
Definition q_check (seq : N) (q : list hmsg) : (N * list hmsg) * res (option hmsg) :=
  match q with
  | [] => ((seq, q), Ok None)
  | m :: _ =>
      if negb (hm_seq m =? seq) then ((seq, q), Ok None)
      else if whole m then ((hm_seq m + 1, drop_delivered (hm_seq m) q), Ok (Some m))
      else match assemble (hm_seq m) (hm_length m) q (repeat x00 (N.to_nat (hm_length m))) 0 with
           | Ok None => ((seq, q), Ok None)
           | Ok (Some buf) =>
               ((hm_seq m + 1, drop_delivered (hm_seq m) q),
                Ok (Some (mkHm (hm_type m) (hm_seq m) buf (hm_datagram m) 0 (hm_length m) (hm_cipher m))))
           | Err e => ((seq, q), Err e)
           | Panic => ((seq, q), Panic)
           | Fuel => ((seq, q), Fuel)
           end
  end.

(** handshake-layer.go:278-292 *)
Fixpoint q_insert (m : hmsg) (q : list hmsg) : list hmsg :=
  match q with
  | [] => [m]
  | f :: q' => if (hm_seq m <? hm_seq f) || (hm_offset m <? hm_offset f) then m :: q else f :: q_insert m q'
  end.

(** handshake-layer.go:260-294 on the expected number and the queue. *)
Definition q_receive (seq : N) (q : list hmsg) (m : hmsg) : (N * list hmsg) * res (option hmsg) :=
  if hm_seq m <? seq then ((seq, q), Ok None)
  else if (hm_seq m =? seq) && whole m then ((hm_seq m + 1, drop_delivered (hm_seq m) q), Ok (Some m))
  else q_check seq (q_insert m q).

Definition in_queue (x : hctx) (p : (N * list hmsg) * res (option hmsg)) : hctx * res (option hmsg) :=
  (set_in x (set_queue (x_in x) (fst (fst p)) (snd (fst p))), snd p).

(** handshake-layer.go:296-347 *)
Definition checkMessageAvailable (x : hctx) : hctx * res (option hmsg) :=
  in_queue x (q_check (hl_msgSeq (x_in x)) (hl_queued (x_in x))).
(** handshake-layer.go:260-294 *)
Definition newFragmentReceived (now : N) (x : hctx) (m : hmsg) : hctx * res (option hmsg) :=
  let seq := hl_msgSeq (x_in x) in
  if hm_seq m <? seq then (x, Ok None) else
  let x := receivedHandshakeMessage now x in
  in_queue x (q_receive seq (hl_queued (x_in x)) m).

(** handshake-layer.go:176-229. A short alert is an index out of range in the log statement (line 208), before
    its length is checked. *)
Definition hl_readRecord (now : N) (x : hctx) : hctx * res unit :=
  let h := x_in x in
  let '(conn, r) := readRecordE (hl_datagram h) (hl_conn h) in
  let x := set_in x (set_conn h conn) in
  match r with
  | Ok pt =>
      let ty := p_type pt in
      if negb (Byte.eqb ty rtHandshake || Byte.eqb ty rtAlert || Byte.eqb ty rtAck)
      then (x, Err (EMsg "tls.handshakelayer: Unexpected record type"))
      else if Byte.eqb ty rtAck then
        if negb (hl_datagram h) then (x, Err (EMsg "tls.handshakelayer: can't have ACK with TLS"))
        else processAck now x (p_fragment pt)
      else if Byte.eqb ty rtAlert then
        match p_fragment pt with
        | _ :: a :: _ => (x, Err (EAlert (bN a)))
        | _ => (x, Panic)
        end
      else if negb (p_epoch pt =? rl_epoch (l_core conn)) then
        if (p_epoch pt =? EpochClear) || (p_epoch pt =? EpochHandshakeData) then (x, Ok tt)
        else (x, Err (EAlert 47))
      else
        let h := x_in x in
        (set_in x (set_frame (set_recvd h (hl_recvd h ++ [p_seq pt])) (addChunk (hl_frame h) (p_fragment pt))), Ok tt)
  | Err e => (x, Err e) | Panic => (x, Panic) | Fuel => (x, Fuel)
  end.

(** handshake-layer.go:349-401, after the queue has been consulted: read records until a frame is complete. In
    nonblocking mode one round is made. [fuel] bounds the blocking loop. *)
Fixpoint readFrame_loop (fuel : nat) (now : N) (x : hctx) : hctx * res (bytes * bytes) :=
  match fuel with
  | O => (x, Fuel)
  | S fuel =>
      let retry e := negb (hl_nonblocking (x_in x)) && is_wb e in
      let step x :=
        let h := x_in x in
        let '(f, r) := process (handshakeFraming (hl_datagram h)) (hl_frame h) in
        let x := set_in x (set_frame h f) in
        match r with
        | Err e => if retry e then readFrame_loop fuel now x else (x, Err e)
        | _ => (x, r)
        end in
      if (0 <? needed (hl_frame (x_in x)))%nat then
        match hl_readRecord now x with
        | (x, Ok _) => step x
        | (x, Err e) => if retry e then step x else (x, Err e)
        | (x, Panic) => (x, Panic)
        | (x, Fuel) => (x, Fuel)
        end
      else step x
  end.

(** handshake-layer.go:384-400: a frame becomes a message. *)
Definition message_of (datagram : bool) (hdr body : bytes) : res hmsg :=
  match hdr with
  | [] => Panic
  | ty :: hdr =>
      Ok (if datagram
          then mkHm ty (unbe (firstn 2 (skipn 3 hdr))) body true (unbe (firstn 3 (skipn 5 hdr))) (unbe (firstn 3 hdr)) None
          else mkHm ty 0 body false 0 (len body mod 2 ^ 32) None)
  end.

(** handshake-layer.go:349-401. [Ok None] is the (nil, nil) return. *)
Definition readMessage (fuel : nat) (now : N) (x : hctx) : hctx * res (option hmsg) :=
  call x, hm <- checkMessageAvailable x;
  match hm with
  | Some m => (x, Ok (Some m))
  | None =>
      call x, '(hdr, body) <- readFrame_loop fuel now x;
      let dg := hl_datagram (x_in x) in
      match message_of dg hdr body with
      | Ok m => if dg then newFragmentReceived now x m else (x, Ok (Some m))
      | Err e => (x, Err e) | Panic => (x, Panic) | Fuel => (x, Fuel)
      end
  end.
