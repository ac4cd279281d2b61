(** C74: goroutines and their locks. *)
From Verif Require Import Base Locks.

(** The steps of all calls are steps those calls have in some run. *)
Definition api (work : list (list (apicall * list act))) : Prop := Forall (Forall (fun c => does_call (fst c) (snd c))) work.
Definition worker_of (y : yard) (t : nat) : worker := nth t (y_workers y) (mkWorker [] []).
Definition done (y : yard) (t : nat) : Prop := k_todo (worker_of y t) = [] /\ k_held (worker_of y t) = [].
(** No lock has two holders, and none is dropped by one that does not hold it. *)
Definition orderly_locks (y : yard) : Prop := y_fatal y = false /\ forall t u l, In l (k_held (worker_of y t)) -> In l (k_held (worker_of y u)) -> t = u.
(** Goroutines of which each waits for the transport. *)
Definition waiting (y : yard) (stuck : nat -> Prop) : Prop := forall t, stuck t -> exists todo, k_todo (worker_of y t) = Await :: todo.
(** A goroutine that does not call [Read]. *)
Definition no_reader (calls : list (apicall * list act)) : Prop := forall c k a, ~ In (CallRead c k, a) calls.
