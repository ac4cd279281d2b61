(** C72: what a number of goroutines that use one connection should do: the same as the same calls one after another. *)
From Verif Require Import Base Frame Record Threads.

(** The records and keys of a call, one after another, up to the first failure. *)
Fixpoint run_ops (l : rlayer) (ops : list op) : rlayer :=
  match ops with
  | [] => l
  | BRekey e k iv :: ops => run_ops (with_core l (rekey (l_core l) e k iv)) ops
  | BRecord pt :: ops => match writeRecord l pt with (l, Ok _) => run_ops l ops | (l, _) => l end
  end.
(** Calls one after another. *)
Definition serial (l : rlayer) (calls : list gocall) : rlayer := fold_left (fun l g => run_ops l (g_ops g)) calls l.
(** The calls of goroutine [t] in a list of calls with their goroutines. *)
Definition calls_of (t : nat) (order : list (nat * gocall)) : list gocall := map snd (filter (fun p => Nat.eqb t (fst p)) order).
(** [order] has the first calls of each goroutine, in its order; with [rest] they are all. *)
Definition takes (calls : list (list gocall)) (order : list (nat * gocall)) (rest : nat -> list gocall) : Prop :=
  forall t, calls_of t order ++ rest t = nth t calls [].
(** Each call holds the lock or leaves the output layer alone, as a [Read] that gets application data does. *)
Definition orderly (calls : list (list gocall)) : Prop := Forall (Forall (fun g => g_locked g = true \/ g_ops g = [])) calls.
(** The nonces of the records of a stream layer, told by [nonce_of] from their bodies. *)
Definition nonces (nonce_of : bytes -> bytes) (records : list bytes) : list bytes := map (fun b => nonce_of (skipn 5 b)) records.
(** Goroutines that write, and others that leave the output layer alone. *)
Definition full_duplex (calls : list (list gocall)) : Prop := Forall (Forall (fun g => (exists b, g = write_call b) \/ g_ops g = [])) calls.
