(** Specification vocabulary for the record layer. *)
From Verif Require Import Base Frame FrameProofs Record.

(** Laws of an AEAD: opening inverts sealing, and the ciphertext is longer by the overhead. *)
Definition aead_ok (k : aead) : Prop :=
  (forall n a p, open k n a (seal k n a p) = Some p) /\
  (forall n a p, List.length (seal k n a p) = (List.length p + overhead k)%nat).

(** A layer that has not read anything yet, in any key state. *)
Definition fresh (core : rcore) (input : list rin) : rlayer :=
  mkRl core (newFrameReader (recordFraming (r_datagram core))) None input [].

(** What a reader sees: the results of [k] successive calls to ReadRecord, would-block results left out.
    Between calls the reader may change keys as it likes: [after] is applied to the layer's key state and
    the result just returned. Reading stops at a crash. *)
Definition rekeying := rcore -> res plaintext -> rcore.
Fixpoint reads (after : rekeying) (old : bool) (k : nat) (l : rlayer) : list (res plaintext) :=
  match k with
  | O => []
  | S k =>
      let '(l, r) := readRecordE old l in
      match r with
      | Panic => [Panic]
      | Fuel => [Fuel]
      | Ok _ => r :: reads after old k (mkRl (after (l_core l) r) (l_frame l) (l_cached l) (l_in l) (l_out l))
      | Err e => if is_wb e then reads after old k l
                 else r :: reads after old k (mkRl (after (l_core l) r) (l_frame l) (l_cached l) (l_in l) (l_out l))
      end
  end.
Definition eventually_same (f g : nat -> list (res plaintext)) : Prop := exists K, forall k, (K <= k)%nat -> f k = g k.
Definition eventually (f : nat -> list (res plaintext)) (l : list (res plaintext)) : Prop :=
  exists K, forall k, (K <= k)%nat -> f k = l.
Definition keeps_transport (after : rekeying) : Prop := forall c r, r_datagram (after c r) = r_datagram c.
Definition no_rekey : rekeying := fun c _ => c.

(** A way of cutting a byte string into the results of successive [Read] calls (some possibly empty). *)
Definition segmentation (conn : list rin) (data : bytes) : Prop :=
  exists chunks, conn = map RBytes chunks /\ concat chunks = data.

(** Successive writes on a layer with its current cipher: message type, content and padding. *)
Record msg := mkMsg { m_type : byte; m_content : bytes; m_pad : nat }.
Fixpoint writes (l : rlayer) (ms : list msg) : rlayer * res unit :=
  match ms with
  | [] => (l, Ok tt)
  | m :: ms =>
      match writeRecordWithPadding l (mkPt (m_type m) 0 0 (m_content m)) (r_cipher (l_core l)) (m_pad m) with
      | (l, Ok _) => writes l ms
      | (l, r) => (l, r)
      end
  end.

(** Record [n] of [ms] as delivered: type and content, the epoch, and the number it was protected under. *)
Definition delivered (m : msg) (epoch seq : N) : res plaintext := Ok (mkPt (m_type m) epoch seq (m_content m)).
Fixpoint delivered_from (ms : list msg) (epoch seq : N) : list (res plaintext) :=
  match ms with [] => [] | m :: ms => delivered m epoch seq :: delivered_from ms epoch (seq + 1) end.

(** Sender and receiver hold the same keys and IV and are at the same record number. *)
Definition in_step (c d : cstate) : Prop :=
  c_aead c = c_aead d /\ c_iv c = c_iv d /\ c_seq c = c_seq d.
Definition cur (r : rcore) : cstate := get_cs r (r_cipher r).
(** The current cipher position exists. *)
Definition cur_ok (r : rcore) : Prop := (r_cipher r < List.length (r_heap r))%nat.

(** DTLS: one datagram per chosen record; any choice of positions models loss, reordering and duplication. *)
Definition datagrams (recs : list bytes) (order : list nat) : list rin :=
  map (fun i => RBytes (nth i recs [])) order.

(** ** Writer histories (nonce uniqueness) *)

(** What can happen to a writing layer: a record written under any installed cipher (retransmissions use old
    ones), new keys, a return to the null cipher, a version change. *)
Inductive wop :=
| WWrite (i : nat) (m : msg)
| WRekey (epoch : N) (k : aead) (iv : bytes)
| WReset (seq : N)
| WVersion (v : N).

(** The protected records a history emits: which cipher state, and the protected body. A panic ends the
    history. *)
Fixpoint emitted (l : rlayer) (ops : list wop) : list (nat * bytes) :=
  match ops with
  | [] => []
  | WWrite i m :: ops =>
      if negb (i <? List.length (r_heap (l_core l)))%nat then emitted l ops else
      match writeRecordWithPadding l (mkPt (m_type m) 0 0 (m_content m)) i (m_pad m) with
      | (l', Ok _) =>
          match c_aead (get_cs (l_core l) i) with
          | Some _ => [(i, skipn (recordHeaderLen (r_datagram (l_core l))) (last (l_out l') []))]
          | None => []
          end ++ emitted l' ops
      | (l', Err _) => emitted l' ops
      | (_, _) => []
      end
  | WRekey e k iv :: ops => emitted (mkRl (rekey (l_core l) e k iv) (l_frame l) (l_cached l) (l_in l) (l_out l)) ops
  | WReset s :: ops => emitted (mkRl (resetClear (l_core l) s) (l_frame l) (l_cached l) (l_in l) (l_out l)) ops
  | WVersion v :: ops => emitted (mkRl (setVersion (l_core l) v) (l_frame l) (l_cached l) (l_in l) (l_out l)) ops
  end.

(** An AEAD that lets an observer recover the nonce it was given. The record layer does not look inside the
    AEAD, so what it does with these it does with all. *)
Definition reveals (nonce_of : bytes -> bytes) (k : aead) : Prop := forall n a p, nonce_of (seal k n a p) = n.
Definition op_reveals (nonce_of : bytes -> bytes) (o : wop) : Prop :=
  match o with WRekey e k _ => reveals nonce_of k /\ e < 2 ^ 16 | _ => True end.

(** ** Rejected records *)

(** A complete record of the given transport. *)
Definition complete_record (datagram : bool) (hdr body : bytes) : Prop :=
  List.length hdr = recordHeaderLen datagram /\ unbe (skipn (List.length hdr - 2) hdr) = len body.
(** The record number the reader uses for it, if it looks at it at all: its own counter on a stream, the one
    in the header on a datagram. *)
Definition number_for (r : rcore) (hdr : bytes) : N :=
  if r_datagram r then unbe (firstn 8 (skipn 3 hdr)) else c_seq (cur r).
(** A record under the current epoch that the current key does not authenticate. *)
Definition unauthentic (r : rcore) (hdr body : bytes) : Prop :=
  exists k nonce, c_aead (cur r) = Some k /\ computeNonce (c_iv (cur r)) (number_for r hdr) = Ok nonce /\
    open k nonce hdr body = None /\
    (r_datagram r = true -> N.shiftr (number_for r hdr) 48 = c_epoch (cur r) /\
                            lookup (c_epoch (cur r)) (r_readCiphers r) <> None).
Definition forged (r : rcore) (f : bytes * bytes) : Prop :=
  complete_record (r_datagram r) (fst f) (snd f) /\ unauthentic r (fst f) (snd f).
Definition wire (f : bytes * bytes) : bytes := fst f ++ snd f.

(** ** Safety of reading *)

(** Every authenticated plaintext contains a non-zero byte (the content type). *)
Definition typed (k : aead) : Prop := forall n a c p, open k n a c = Some p -> Exists (fun b => b <> x00) p.
(** A reading layer with usable keys and room for [n] more records. *)
Definition readable (n : N) (r : rcore) : Prop :=
  r_dir r = DirRead /\
  Forall (fun c => c_seq c + n <= 2 ^ 48 - 1 /\
                   forall k, c_aead c = Some k -> typed k /\ (8 <= List.length (c_iv c))%nat) (r_heap r) /\
  cur_ok r /\
  (forall e i, lookup e (r_readCiphers r) = Some i ->
     (i < List.length (r_heap r))%nat /\ (c_aead (get_cs r i) <> None -> c_aead (cur r) <> None)).
