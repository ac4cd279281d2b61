(** C73: what can be seen of a record by someone without the key: its header and its length. *)
From Verif Require Import Base Frame Record.

Definition same_outside (datagram : bool) (a b : bytes) : Prop :=
  List.length a = List.length b /\ firstn (if datagram then 13 else 5) a = firstn (if datagram then 13 else 5) b.
(** A fragment with its padding: [WriteRecordWithPadding], record-layer.go:457-459. *)
Definition padded_length (p : plaintext * nat) : nat := List.length (p_fragment (fst p)) + snd p.
Fixpoint write_padded (l : rlayer) (ps : list (plaintext * nat)) : rlayer * list (res unit) :=
  match ps with
  | [] => (l, [])
  | (pt, pad) :: ps =>
      let '(l, r) := writeRecordWithPadding l pt (r_cipher (l_core l)) pad in
      let '(l, rs) := write_padded l ps in (l, r :: rs)
  end.
(** The AEAD lengthens all it seals by as much. *)
Definition lengthens (k : aead) : Prop := forall n a p, List.length (seal k n a p) = (List.length p + overhead k)%nat.
