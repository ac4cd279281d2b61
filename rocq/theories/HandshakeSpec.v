(** Specification vocabulary for the handshake layer. *)
From Verif Require Import Base Frame FrameProofs Record RecordSpec Timer Handshake.

(** The records a reading layer finds in [data], one after the other. *)
Inductive record_stream (old : bool) : rcore -> bytes -> list plaintext -> Prop :=
| rs_nil r data : first_frame (recordFraming (r_datagram r)) data = None -> record_stream old r data []
| rs_cons r data hdr body rest core pt pts :
    first_frame (recordFraming (r_datagram r)) data = Some (Ok (hdr, body), rest) ->
    handleFrame r old hdr body = (core, Ok pt) -> record_stream old core rest pts -> record_stream old r data (pt :: pts).

(** Sending messages, given by type and body, one after the other. *)
Fixpoint sends (x : hctx) (ms : list (byte * bytes)) : hctx * res unit :=
  match ms with
  | [] => (x, Ok tt)
  | (t, b) :: ms =>
      let '(h, m) := messageFromBody (x_out x) t b in
      match queueMessage (set_out x h) m with
      | (x, Ok _) => sends x ms
      | (x, r) => (x, r)
      end
  end.

(** What [k] successive calls of ReadMessage return: messages and errors, would-block results and empty returns
    left out. Reading stops at a crash, and when a blocking call does not return. *)
Fixpoint received (fuel k : nat) (now : N) (x : hctx) : list (res hmsg) :=
  match k with
  | O => []
  | S k =>
      match readMessage fuel now x with
      | (x, Ok (Some m)) => Ok m :: received fuel k now x
      | (x, Ok None) => received fuel k now x
      | (x, Err e) => if is_wb e then received fuel k now x else Err e :: received fuel k now x
      | (_, Panic) => [Panic]
      | (_, Fuel) => []
      end
  end.

(** A message as a TLS reader reports it. *)
Definition tls_message (m : byte * bytes) : hmsg := mkHm (fst m) 0 (snd m) false 0 (len (snd m)) None.

(** A context whose writing side is a TLS handshake layer that has written nothing yet, and one whose reading
    side has read nothing yet. *)
Definition tls_writer (x : hctx) (core : rcore) : Prop :=
  hl_datagram (x_out x) = false /\ x_sent x = [] /\ l_core (hl_conn (x_out x)) = core /\ l_out (hl_conn (x_out x)) = [] /\
  r_datagram core = false.
Definition tls_reader (x : hctx) (core : rcore) (conn : list rin) : Prop :=
  hl_datagram (x_in x) = false /\ hl_queued (x_in x) = [] /\ hl_conn (x_in x) = fresh core conn /\
  hl_frame (x_in x) = newFrameReader (handshakeFraming false) /\ r_datagram core = false /\ r_dir core = DirRead.

(** What a fragment of [n] bytes becomes on the wire. *)
Definition protected_len (r : rcore) (n : nat) : N :=
  match c_aead (cur r) with Some k => N.of_nat n + 1 + N.of_nat (overhead k) | None => N.of_nat n end.
(** A stream writer with usable keys and room for [n] more records. *)
Definition writable (n : N) (r : rcore) : Prop :=
  r_datagram r = false /\ cur_ok r /\ c_seq (cur r) + n < 2 ^ 48 /\
  forall k, c_aead (cur r) = Some k -> aead_ok k /\ (8 <= List.length (c_iv (cur r)))%nat /\ r_dir r = DirWrite.
(** The number of bytes the messages take; never more records than that are needed. *)
Fixpoint size_of (ms : list (byte * bytes)) : N :=
  match ms with [] => 0 | m :: ms => 4 + len (snd m) + size_of ms end.
