(** Specification vocabulary for DTLS handshake reading. *)
From Verif Require Import Base Frame FrameProofs Record RecordSpec Timer Handshake HandshakeSpec.

(** A fragment as it goes over the wire: all fields fit their encodings. *)
Definition wire_ok (f : hmsg) : Prop :=
  hm_datagram f = true /\ hm_seq f < 2 ^ 16 /\ hm_offset f < 2 ^ 24 /\ hm_length f < 2 ^ 24 /\ len (hm_body f) < 2 ^ 24 /\ hm_cipher f = None.

(** A DTLS context whose reading side has an empty queue and expects message [seq], and whose connection will
    bring handshake records of the current epoch with the fragments [fs], in this order, however packed into
    records. *)
Definition dtls_reader (x : hctx) (seq : N) (fs : list hmsg) : Prop :=
  let h := x_in x in
  hl_datagram h = true /\ hl_queued h = [] /\ hl_msgSeq h = seq /\ hl_frame h = newFrameReader (handshakeFraming true) /\
  Forall wire_ok fs /\
  exists core conn data pts, hl_conn h = fresh core conn /\ r_datagram core = true /\ segmentation conn data /\
    record_stream true core data pts /\ Forall (fun pt => p_type pt = rtHandshake /\ p_epoch pt = rl_epoch core) pts /\
    concat (map p_fragment pts) = concat (map hm_marshal fs).

(** The messages the peer sent: type and body by number. A fragment of one of them. *)
Definition sent := N -> option (byte * bytes).
Definition part (b : bytes) (offset n : N) : bytes := firstn (N.to_nat n) (skipn (N.to_nat offset) b).
Definition genuine (ms : sent) (f : hmsg) : Prop :=
  exists b, ms (hm_seq f) = Some (hm_type f, b) /\ hm_length f = len b /\ hm_offset f + len (hm_body f) <= len b /\
    hm_body f = part b (hm_offset f) (len (hm_body f)).
(** In one piece. *)
Definition unfragmented (f : hmsg) : Prop := hm_offset f = 0 /\ hm_length f = len (hm_body f).
(** Within the message it says it belongs to. *)
Definition sane (f : hmsg) : Prop := hm_offset f + len (hm_body f) <= hm_length f.

(** A delivered message as the peer sent it. *)
Definition as_sent (ms : sent) (m : hmsg) : Prop := ms (hm_seq m) = Some (hm_type m, hm_body m).
Definition message (seq : N) (tb : byte * bytes) : hmsg := mkHm (fst tb) seq (snd tb) true 0 (len (snd tb)) None.

(** No earlier message has the length of message [n]. *)
Definition length_unique (ms : sent) (n : N) : Prop :=
  forall n' t b t' b', n' < n -> ms n = Some (t, b) -> ms n' = Some (t', b') -> len b' <> len b.

(** Every byte of a body of length [n] is in some fragment. *)
Definition covers (fs : list hmsg) (n : N) : Prop :=
  fs <> [] /\ forall i, i < n -> Exists (fun f => hm_offset f <= i < hm_offset f + len (hm_body f)) fs.

(** The messages among results. *)
Definition oks (rs : list (res hmsg)) : list hmsg := flat_map (fun r => match r with Ok m => [m] | _ => [] end) rs.
Fixpoint numbers_from (n : N) (k : nat) : list N := match k with O => [] | S k => n :: numbers_from (n + 1) k end.

(** Whatever happens at an endpoint: a read, the state machine noting flights, timers, sending. *)
Inductive hop :=
| HRead (fuel : nat) (now : N)
| HEndOfFlight
| HFinalFlight
| HTimers (grow : nat -> nat) (now : N)
| HQueue (ty : byte) (body : bytes)
| HSend
| HRekeyIn (epoch : N) (k : aead) (iv : bytes)
| HRekeyOut (epoch : N) (k : aead) (iv : bytes)
| HInput (conn : list rin).
Definition with_core (h : hlayer) (f : rcore -> rcore) : hlayer :=
  let l := hl_conn h in set_conn h (mkRl (f (l_core l)) (l_frame l) (l_cached l) (l_in l) (l_out l)).
(** The new context and the message read, if any. *)
Definition hstep (x : hctx) (o : hop) : hctx * res (option hmsg) :=
  match o with
  | HRead fuel now => readMessage fuel now x
  | HEndOfFlight => (receivedEndOfFlight x, Ok None)
  | HFinalFlight => let '(x, r) := receivedFinalFlight x in (x, do _ <- r; Ok None)
  | HTimers grow now => let '(x, r) := checkTimers grow now x in (x, do _ <- r; Ok None)
  | HQueue t b => let '(h, m) := messageFromBody (x_out x) t b in let '(x, r) := queueMessage (set_out x h) m in (x, do _ <- r; Ok None)
  | HSend => let '(x, r) := sendQueued x in (x, do _ <- r; Ok None)
  | HRekeyIn e k iv => (set_in x (with_core (x_in x) (fun c => rekey c e k iv)), Ok None)
  | HRekeyOut e k iv => (set_out x (with_core (x_out x) (fun c => rekey c e k iv)), Ok None)
  | HInput conn => let l := hl_conn (x_in x) in (set_in x (set_conn (x_in x) (mkRl (l_core l) (l_frame l) (l_cached l) (l_in l ++ conn) (l_out l))), Ok None)
  end.
(** The messages a history delivers. A crash ends it. *)
Fixpoint deliveries (x : hctx) (ops : list hop) : list hmsg :=
  match ops with
  | [] => []
  | o :: ops =>
      match hstep x o with
      | (x, Ok (Some m)) => m :: deliveries x ops
      | (x, Panic) | (x, Fuel) => []
      | (x, _) => deliveries x ops
      end
  end.

(** A record that carries fragment [f], protected with the key, iv and epoch of [c]. *)
Definition same_keys (c d : cstate) : Prop := c_aead c = c_aead d /\ c_iv c = c_iv d /\ c_epoch c = c_epoch d.
Definition carries (c : cstate) (rec : bytes) (f : hmsg) : Prop :=
  exists w i c', protect w i (mkPt rtHandshake 0 0 (hm_marshal f)) 0 = Ok (rec, c') /\ r_datagram w = true /\ same_keys (get_cs w i) c.
(** A reading key state that can take [n] more records of its current epoch. *)
Definition dtls_readable (n : N) (core : rcore) : Prop :=
  r_datagram core = true /\ r_dir core = DirRead /\ cur_ok core /\ c_epoch (cur core) < 2 ^ 16 /\
  lookup (c_epoch (cur core)) (r_readCiphers core) <> None /\ c_seq (cur core) + n <= 2 ^ 48 - 1 /\
  forall k, c_aead (cur core) = Some k -> aead_ok k.
(** The endpoint that gets these records, one per datagram, and expects message [seq]. *)
Definition dtls_endpoint (core : rcore) (seq : N) (recs : list bytes) (x : hctx) : Prop :=
  let h := x_in x in
  hl_datagram h = true /\ hl_queued h = [] /\ hl_msgSeq h = seq /\ hl_frame h = newFrameReader (handshakeFraming true) /\
  hl_conn h = fresh core (map RBytes recs).

(** ** Sending *)

Definition byte_of (i : N) (f : hmsg) : Prop := hm_offset f <= i < hm_offset f + len (hm_body f).
(** [f] is a fragment of message [m]. *)
Definition fragment_of (m f : hmsg) : Prop :=
  hm_type f = hm_type m /\ hm_seq f = hm_seq m /\ hm_datagram f = true /\ hm_length f = hm_length m /\ hm_cipher f = None /\
  hm_offset f + len (hm_body f) <= len (hm_body m) /\ hm_body f = part (hm_body m) (hm_offset f) (len (hm_body f)).
(** One acknowledged fragment of message [seq] contains the [n] bytes from [offset] on. *)
Definition acked_over (sent : list sfrag) (seq offset n : N) : Prop :=
  Exists (fun s => sf_acked s = true /\ sf_seq s = seq /\ N.of_nat (sf_offset s) <= offset /\
                   offset + n <= N.of_nat (sf_offset s) + N.of_nat (sf_len s)) sent.
(** [fs] is what has to be sent of [m]: fragments of it, none of them already acknowledged, and no byte that
    was not acknowledged missing; something is sent if nothing was acknowledged. *)
Definition unacked_of (sent : list sfrag) (m : hmsg) (fs : list hmsg) : Prop :=
  Forall (fragment_of m) fs /\
  Forall (fun f => ~ acked_over sent (hm_seq m) (hm_offset f) (len (hm_body f))) fs /\
  (forall i, i < len (hm_body m) -> Exists (byte_of i) fs \/ exists o n, o <= i < o + n /\ acked_over sent (hm_seq m) o n) /\
  (fs = [] -> exists n, acked_over sent (hm_seq m) 0 n).

(** All of message [m] has been acknowledged. *)
Definition acknowledged (sent : list sfrag) (m : hmsg) : Prop :=
  (forall i, i < len (hm_body m) -> exists o n, o <= i < o + n /\ acked_over sent (hm_seq m) o n) /\ exists n, acked_over sent (hm_seq m) 0 n.

(** A message queued for DTLS under an existing cipher state of the writing layer. *)
Definition queued_ok (core : rcore) (m : hmsg) : Prop :=
  hm_datagram m = true /\ exists c, hm_cipher m = Some c /\ (c < List.length (r_heap core))%nat.
Definition cipher_of (core : rcore) (m : hmsg) : cstate := match hm_cipher m with Some c => get_cs core c | None => nullCs end.
Definition out_core (x : hctx) : rcore := l_core (hl_conn (x_out x)).
Definition out_records (x : hctx) : list bytes := l_out (hl_conn (x_out x)).

(** A DTLS writing layer that has room for [n] more records of at most [size] bytes under every cipher state. *)
Definition dtls_writable (n : N) (size : nat) (core : rcore) : Prop :=
  r_datagram core = true /\ r_dir core = DirWrite /\ (r_version core = tls12Version \/ r_version core = tls10Version) /\
  forall i, (i < List.length (r_heap core))%nat ->
    c_seq (get_cs core i) + n <= 2 ^ 48 - 1 /\
    match c_aead (get_cs core i) with
    | Some k => aead_ok k /\ (8 <= List.length (c_iv (get_cs core i)))%nat /\ N.of_nat size + 1 + N.of_nat (overhead k) <= 2 ^ 14
    | None => N.of_nat size <= 2 ^ 14
    end.
Definition body_bytes (ms : list hmsg) : N := fold_right (fun m n => len (hm_body m) + 1 + n) 0 ms.

(** The number in a DTLS record's header. *)
Definition record_number (rec : bytes) : N := unbe (firstn 8 (skipn 3 rec)).

(** ** Histories of a sending endpoint *)

(** Everything that touches the sending side, apart from key changes. Reading a record amounts to [WaIn]
    followed by [WaAck] or [WaReceived]. *)
Inductive wact :=
| WaQueue (t : byte) (b : bytes)
| WaSend
| WaTimers (grow : nat -> nat) (now : N)
| WaAck (now : N) (data : bytes)
| WaReceived (now : N)
| WaEndOfFlight
| WaFinalFlight
| WaIn (h : hlayer).
Definition wact_step (x : hctx) (a : wact) : hctx * res unit :=
  match a with
  | WaQueue t b => let '(h, m) := messageFromBody (x_out x) t b in queueMessage (set_out x h) m
  | WaSend => let '(x, r) := sendQueued x in (x, do _ <- r; Ok tt)
  | WaTimers grow now => checkTimers grow now x
  | WaAck now data => processAck now x data
  | WaReceived now => (receivedHandshakeMessage now x, Ok tt)
  | WaEndOfFlight => (receivedEndOfFlight x, Ok tt)
  | WaFinalFlight => receivedFinalFlight x
  | WaIn h => (set_in x h, Ok tt)
  end.
(** A history in which no call fails. *)
Fixpoint wact_run (x : hctx) (acts : list wact) : option hctx :=
  match acts with
  | [] => Some x
  | a :: acts => match wact_step x a with (x, Ok _) => wact_run x acts | _ => None end
  end.

(** Steps in which the endpoint may send ACKs of its own. *)
Definition sends_acks (a : wact) : bool := match a with WaTimers _ _ | WaFinalFlight => true | _ => false end.

(** The body of an ACK for these record numbers. *)
Definition ack_bytes (nums : list N) : bytes := be 2 (8 * len nums) ++ concat (map (be 8) nums).
(** The messages queued, numbered from [n] on. *)
Definition queue_of (acts : list wact) : list (byte * bytes) :=
  flat_map (fun a => match a with WaQueue t b => [(t, b)] | _ => [] end) acts.
Definition numbered (n : N) (ms : list (byte * bytes)) : sent := fun i => if i <? n then None else nth_error ms (N.to_nat (i - n)).

(** A DTLS endpoint that has not sent anything under its present keys. *)
Definition dtls_writer (x : hctx) : Prop :=
  hl_datagram (x_out x) = true /\ r_datagram (out_core x) = true /\ cur_ok (out_core x) /\ c_epoch (cur (out_core x)) < 2 ^ 16 /\
  c_seq (cur (out_core x)) < 2 ^ 48 /\ x_sent x = [] /\ hl_queued (x_out x) = [] /\ out_records x = [].

(** The log entry is about these bytes. *)
Definition entry_for (s : sfrag) (f : hmsg) : Prop :=
  sf_seq s = hm_seq f /\ N.of_nat (sf_offset s) = hm_offset f /\ N.of_nat (sf_len s) = len (hm_body f).
