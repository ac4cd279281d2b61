(** C76: writing to a connection that may fail. *)
From Verif Require Import Base Record Conn Faulty.

(** Some bytes at the front of a record, or all of it. *)
Definition cut_from (part whole : bytes) : Prop := exists rest, whole = part ++ rest.
(** The same records over a connection that does not fail. *)
Definition unbroken (rs : list (fate * plaintext)) : list (fate * plaintext) := map (fun r => (Accepts, snd r)) rs.
(** The record that [Write] would send next is the one of some of the bytes not yet sent; [tail] is nothing, or cut from it. *)
Definition rest_of (l : rlayer) (unsent : bytes) (tail : list bytes) : Prop :=
  tail = [] \/ exists part whole m l', tail = [part] /\ cut_from part whole /\ writeRecord l (mkPt rtApplicationData 0 0 (firstn m unsent)) = (l', Ok tt) /\ l_out l' = l_out l ++ [whole].
(** [Write] reported [n] bytes of [b] as sent and left the layer with the output [out]: these bytes went out just as [Write] of them alone sends them, and after them came at most a part of one record. *)
Definition reported (c : conn) (b : bytes) (out : list bytes) (n : nat) (r : res unit) : Prop :=
  (n <= List.length b)%nat /\ (r = Ok tt -> n = List.length b) /\
  exists c1 tail, write c (firstn n b) = (c1, (n, Ok tt)) /\ out = l_out (c_out c1) ++ tail /\ rest_of (c_out c1) (skipn n b) tail /\ (r = Ok tt -> tail = []).
