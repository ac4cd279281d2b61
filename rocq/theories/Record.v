(** Model of /repo/record-layer.go: framing, protection and deprotection of records. *)
From Verif Require Import Base Frame.

(** ** Constants *)

(** common.go:23-29 *)
Definition rtAlert : byte := x15.
Definition rtHandshake : byte := x16.
Definition rtApplicationData : byte := x17.
Definition rtAck : byte := x19.

(** record-layer.go:14 *)
Definition maxFragmentLen : N := 16384.

(** common.go:9-12 *)
Definition tls12Version : N := 771.
Definition tls10Version : N := 769.
Definition dtls12WireVersion : N := 65277.

(** common.go:240-246 *)
Definition EpochClear : N := 0.
Definition EpochEarlyData : N := 1.
Definition EpochHandshakeData : N := 2.
Definition EpochApplicationData : N := 3.
Definition EpochUpdate : N := 4.

(** dtls.go:39-47 *)
Definition dtlsConvertVersion (version : N) : res N :=
  if version =? tls12Version then Ok dtls12WireVersion
  else if version =? tls10Version then Ok 65279
  else Panic.

(** ** Ciphers *)

(** Go's [cipher.AEAD] already keyed (record-layer.go:64); nonce size is not checked. *)
Record aead := mkAead {
  overhead : nat;
  seal : bytes -> bytes -> bytes -> bytes;          (* nonce, additional data, plaintext *)
  open : bytes -> bytes -> bytes -> option bytes    (* nonce, additional data, ciphertext *)
}.

(** record-layer.go:59-65, without [ivLength], which is never read. *)
Record cstate := mkCs { c_epoch : N; c_seq : N; c_iv : bytes; c_aead : option aead }.

(** record-layer.go:38-45 *)
Record plaintext := mkPt { p_type : byte; p_epoch : N; p_seq : N; p_fragment : bytes }.

Inductive direction := DirWrite | DirRead.

(** The part of record-layer.go:85-100 that does not concern buffering. Cipher states are shared by pointer
    (by [cipher], [readCiphers] and queued handshake messages), so they live in a heap and are named by
    position. [readCiphers] is an association list, latest binding first. *)
Record rcore := mkCore {
  r_dir : direction; r_version : N; r_datagram : bool;
  r_heap : list cstate; r_cipher : nat; r_readCiphers : list (N * nat)
}.

(** record-layer.go:85-100 with the two sides of the connection: reads still to be returned, and records
    written. [cachedError] is never set. *)
Record rlayer := mkRl {
  l_core : rcore; l_frame : freader; l_cached : option plaintext; l_in : list rin; l_out : list bytes
}.

(** record-layer.go:106-123 *)
Definition recordHeaderLen (datagram : bool) : nat := if datagram then 13 else 5.
Definition recordFraming (datagram : bool) : framing :=
  {| headerLen := recordHeaderLen datagram;
     frameLen := fun hdr => Ok (N.to_nat (unbe (skipn (recordHeaderLen datagram - 2) hdr))) |}.

(** record-layer.go:125-127 *)
Definition nullCs : cstate := mkCs EpochClear 0 [] None.

(** record-layer.go:138-160 *)
Definition newRecordLayer (datagram : bool) (dir : direction) (input : list rin) : rlayer :=
  {| l_core := {| r_dir := dir; r_version := if datagram then 0 else tls10Version; r_datagram := datagram;
                  r_heap := [nullCs]; r_cipher := 0; r_readCiphers := if datagram then [(0, 0%nat)] else [] |};
     l_frame := newFrameReader (recordFraming datagram);
     l_cached := None; l_in := input; l_out := [] |}.

Definition get_cs (r : rcore) (i : nat) : cstate := nth i (r_heap r) nullCs.
Fixpoint set_nth {A} (i : nat) (x : A) (l : list A) : list A :=
  match l, i with
  | [], _ => []
  | _ :: l, O => x :: l
  | y :: l, S i => y :: set_nth i x l
  end.
Definition set_cs (r : rcore) (i : nat) (c : cstate) : rcore :=
  mkCore (r_dir r) (r_version r) (r_datagram r) (set_nth i c (r_heap r)) (r_cipher r) (r_readCiphers r).

(** record-layer.go:162-164 *)
Definition setVersion (r : rcore) (v : N) : rcore :=
  mkCore (r_dir r) v (r_datagram r) (r_heap r) (r_cipher r) (r_readCiphers r).

(** record-layer.go:166-169 *)
Definition resetClear (r : rcore) (seq : N) : rcore :=
  mkCore (r_dir r) (r_version r) (r_datagram r) (r_heap r ++ [mkCs EpochClear seq [] None])
         (List.length (r_heap r)) (r_readCiphers r).

(** record-layer.go:171-173 *)
Definition rl_epoch (r : rcore) : N := c_epoch (get_cs r (r_cipher r)).

(** record-layer.go:129-136, 179-189: [k] is the result of the AEAD factory on the key. *)
Definition rekey (r : rcore) (epoch : N) (k : aead) (iv : bytes) : rcore :=
  let i := List.length (r_heap r) in
  mkCore (r_dir r) (r_version r) (r_datagram r) (r_heap r ++ [mkCs epoch 0 iv (Some k)]) i
         (if r_datagram r then match r_dir r with DirRead => (epoch, i) :: r_readCiphers r | DirWrite => r_readCiphers r end
          else r_readCiphers r).

(** [readCiphers[epoch]] *)
Fixpoint lookup (e : N) (m : list (N * nat)) : option nat :=
  match m with [] => None | (k, i) :: m => if k =? e then Some i else lookup e m end.

(** record-layer.go:192-200 *)
Definition discardReadKey (r : rcore) (epoch : N) : res rcore :=
  if negb (r_datagram r) then Ok r else
  match lookup epoch (r_readCiphers r) with
  | None => Panic
  | Some _ => Ok (mkCore (r_dir r) (r_version r) (r_datagram r) (r_heap r) (r_cipher r)
                         (filter (fun p => negb (fst p =? epoch)) (r_readCiphers r)))
  end.

(** record-layer.go:202-208 *)
Definition combineSeq (c : cstate) (datagram : bool) : N :=
  if datagram then N.lor (c_seq c) (N.shiftl (c_epoch c) 48) else c_seq c.

Definition bxor (a b : byte) : byte := b8 (N.lxor (bN a) (bN b)).
Fixpoint xor_bytes (a b : bytes) : bytes :=
  match a, b with x :: a, y :: b => bxor x y :: xor_bytes a b | _, _ => [] end.

(** record-layer.go:210-224: the last eight bytes of the IV are xored with the sequence number; an IV shorter
    than that is an index out of range. *)
Definition computeNonce (iv : bytes) (seq : N) : res bytes :=
  if (List.length iv <? 8)%nat then Panic
  else let k := (List.length iv - 8)%nat in Ok (firstn k iv ++ xor_bytes (skipn k iv) (be 8 seq)).

(** record-layer.go:226-235 *)
Definition incrementSequenceNumber (c : cstate) : res cstate :=
  if 2 ^ 48 - 1 <=? c_seq c then Panic
  else Ok (mkCs (c_epoch c) (c_seq c + 1) (c_iv c) (c_aead c)).

(** record-layer.go:237-242 *)
Definition cs_overhead (c : cstate) : nat := match c_aead c with Some k => overhead k | None => 0 end.

(** ** Writing *)

(** record-layer.go:244-263. [Seal] works in place in a buffer of exactly the right size, so its result is the
    ciphertext. *)
Definition encrypt (r : rcore) (c : cstate) (k : aead) (seq : N) (header : bytes) (pt : plaintext) (padLen : nat) : res bytes :=
  match r_dir r with
  | DirRead => Panic
  | DirWrite =>
      do nonce <- computeNonce (c_iv c) seq;
      Ok (seal k nonce header (p_fragment pt ++ [p_type pt] ++ repeat x00 padLen))
  end.

(** record-layer.go:471-486. [byte(length >> 8), byte(length)] is a two-byte big-endian encoding. *)
Definition recordHeader (datagram : bool) (version : N) (ty : byte) (seq : N) (length : nat) : res bytes :=
  if datagram then
    do v <- dtlsConvertVersion version;
    Ok ([ty] ++ be 2 v ++ be 8 seq ++ be 2 (N.of_nat length))
  else Ok ([ty] ++ be 2 version ++ be 2 (N.of_nat length)).

(** record-layer.go:461-509: the record handed to the connection and the cipher state's new value. *)
Definition protect (r : rcore) (i : nat) (pt : plaintext) (padLen : nat) : res (bytes * cstate) :=
  let c := get_cs r i in
  let seq := combineSeq c (r_datagram r) in
  do '(header, ciphertext) <-
    match c_aead c with
    | Some k =>
        do header <- recordHeader (r_datagram r) (r_version r) rtApplicationData seq
                       (List.length (p_fragment pt) + 1 + padLen + overhead k);
        do ct <- encrypt r c k seq header pt padLen;
        Ok (header, ct)
    | None =>
        do header <- recordHeader (r_datagram r) (r_version r) (p_type pt) seq (List.length (p_fragment pt));
        if (0 <? padLen)%nat then Err (EMsg "tls.record: Padding can only be done on encrypted records")
        else Ok (header, p_fragment pt)
    end;
  if maxFragmentLen <? len ciphertext then Err (EMsg "tls.record: Record size too big") else
  do c' <- incrementSequenceNumber c;
  Ok (header ++ ciphertext, c').

(** record-layer.go:461-509 writeRecordWithPadding with cipher [i]. The connection's [Write] is taken to succeed. *)
Definition writeRecordWithPadding (l : rlayer) (pt : plaintext) (i : nat) (padLen : nat) : rlayer * res unit :=
  match protect (l_core l) i pt padLen with
  | Ok (record, c') =>
      (mkRl (set_cs (l_core l) i c') (l_frame l) (l_cached l) (l_in l) (l_out l ++ [record]), Ok tt)
  | Err e => (l, Err e)
  | Panic => (l, Panic)
  | Fuel => (l, Fuel)
  end.
(** record-layer.go:453-455 *)
Definition writeRecord (l : rlayer) (pt : plaintext) : rlayer * res unit :=
  writeRecordWithPadding l pt (r_cipher (l_core l)) 0.

(** ** Reading *)

(** record-layer.go:285-288: drop trailing zeros; [None] when the scan runs off the front. *)
Fixpoint strip_padding_rev (l : bytes) : option (byte * bytes) :=
  match l with
  | [] => None
  | b :: l => if Byte.eqb b x00 then strip_padding_rev l else Some (b, rev l)
  end.
Definition strip_padding (l : bytes) : option (byte * bytes) := strip_padding_rev (rev l).

(** record-layer.go:265-299. Always uses [r.cipher]; with a null cipher there it dereferences nil. [Open] is
    taken to return exactly [len(fragment) - overhead] bytes. *)
Definition decrypt (r : rcore) (seq : N) (header fragment : bytes) : res plaintext :=
  match r_dir r with
  | DirWrite => Panic
  | DirRead =>
      let c := get_cs r (r_cipher r) in
      if (List.length fragment <? cs_overhead c)%nat then Err EDecrypt else
      match c_aead c with
      | None => Panic
      | Some k =>
          do nonce <- computeNonce (c_iv c) seq;
          match open k nonce header fragment with
          | None => Err EDecrypt
          | Some p => match strip_padding p with
                      | None => Panic
                      | Some (ty, frag) => Ok (mkPt ty 0 seq frag)
                      end
          end
      end
  end.

(** record-layer.go:381-450: everything after a frame has been obtained. [allowWrongVersionNumber] is true
    (common.go:17), so the version is not checked. *)
Definition handleFrame (r : rcore) (allowOldEpoch : bool) (header body : bytes) : rcore * res plaintext :=
  match header with
  | [] => (r, Panic)
  | ty :: _ =>
      if negb (Byte.eqb ty rtAlert || Byte.eqb ty rtHandshake || Byte.eqb ty rtApplicationData || Byte.eqb ty rtAck)
      then (r, Err (EMsg "tls.record: Unknown content type")) else
      let size := unbe (skipn (List.length header - 2) header) in
      if maxFragmentLen + 256 <? size then (r, Err (EMsg "tls.record: Ciphertext size too big")) else
      let fragment := firstn (N.to_nat size) body ++ repeat x00 (N.to_nat size - List.length body) in
      let sel : res (N * nat) :=
        if r_datagram r then
          let seq := unbe (firstn 8 (skipn 3 header)) in
          let epoch := N.shiftr seq 48 in
          match lookup epoch (r_readCiphers r) with
          | None => Err WouldBlock
          | Some c => if epoch =? c_epoch (get_cs r (r_cipher r)) then Ok (seq, r_cipher r)
                      else if allowOldEpoch then Ok (seq, c) else Err WouldBlock
          end
        else Ok (c_seq (get_cs r (r_cipher r)), r_cipher r) in
      match (do '(seq, i) <- sel;
             let c := get_cs r i in
             do pt <- match c_aead c with
                      | Some _ => decrypt r seq header fragment
                      | None => Ok (mkPt ty 0 0 fragment)
                      end;
             let pt := mkPt (p_type pt) (c_epoch c) (p_seq pt) (p_fragment pt) in
             if maxFragmentLen <? len (p_fragment pt) then Err (EMsg "tls.record: Plaintext size too big") else
             do c' <- incrementSequenceNumber c;
             Ok (pt, i, c')) with
      | Ok (pt, i, c') => (set_cs r i c', Ok pt)
      | Err e => (r, Err e)
      | Panic => (r, Panic)
      | Fuel => (r, Fuel)
      end
  end.

(** record-layer.go:337-451 *)
Definition nextRecord (l : rlayer) (allowOldEpoch : bool) : rlayer * res plaintext :=
  match l_cached l with
  | Some pt => (l, Ok pt)
  | None =>
      let '(conn, f, r) := nextFrame (recordFraming (r_datagram (l_core l))) (l_in l) (l_frame l) in
      let l := mkRl (l_core l) f None conn (l_out l) in
      match r with
      | Ok (header, body) =>
          match handleFrame (l_core l) allowOldEpoch header body with
          | (core, Ok pt) => (mkRl core f (Some pt) conn (l_out l), Ok pt)
          | (core, r) => (mkRl core f None conn (l_out l), r)
          end
      | Err e => (l, Err e)
      | Panic => (l, Panic)
      | Fuel => (l, Fuel)
      end
  end.

(** record-layer.go:317-335 ReadRecord, ReadRecordAnyEpoch *)
Definition readRecordE (allowOldEpoch : bool) (l : rlayer) : rlayer * res plaintext :=
  let '(l, r) := nextRecord l allowOldEpoch in
  (mkRl (l_core l) (l_frame l) None (l_in l) (l_out l), r).
Definition readRecord := readRecordE false.
Definition readRecordAnyEpoch := readRecordE true.

(** record-layer.go:301-315 with [block = false] (the blocking form repeats it). *)
Definition peekRecordType (l : rlayer) : rlayer * res byte :=
  let '(l, r) := nextRecord l false in (l, do pt <- r; Ok (p_type pt)).
