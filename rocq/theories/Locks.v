(** The locks that the calls of the API take, for any number of connections and configurations used by any number of goroutines. Of a call the model has the
    locks it takes and drops and the steps between them; a step that reads from the transport can take for ever. *)
From Verif Require Import Base.

(** record-layer.go:86 (one for each direction of a connection, embedded in the layer), conn.go:270, conn.go:134-136 (an RWMutex of which only [Lock] is used). Connections and configurations are numbered. *)
Inductive lock := InputOf (conn : nat) | OutputOf (conn : nat) | AlertsOf (conn : nat) | ConfigOf (config : nat).
Definition lock_eq : forall a b : lock, {a = b} + {a <> b}.
Proof. decide equality; apply Nat.eq_dec. Defined.
(** sync.Mutex: [Lock], [Unlock]; a read from the transport (record-layer.go:337-451); and anything else. A deferred [Unlock] (conn.go:143, 177, 453, 474, 514) is the last step before the return. *)
Inductive act := Take (l : lock) | Drop (l : lock) | Await | Work.

(** conn.go:512-536 [sendAlert] holds the alert lock from start to end; around it a call works without locks of its own: conn.go:307-401 [consumeRecord],
    conn.go:728-837 [Handshake] after the setup, conn.go:839-866 [SendKeyUpdate]. *)
Inductive busy (c : nat) : list act -> Prop :=
| busy_nil : busy c []
| busy_work a : busy c a -> busy c (Work :: a)
| busy_await a : busy c a -> busy c (Await :: a)
| busy_alert n a : busy c a -> busy c (Take (AlertsOf c) :: repeat Work n ++ Drop (AlertsOf c) :: a).
(** conn.go:175-199 [Init] and conn.go:141-173 [Clone] *)
Inductive configures (k : nat) : list act -> Prop := configures_ n : configures k (Take (ConfigOf k) :: repeat Work n ++ [Drop (ConfigOf k)]).
(** conn.go:728-837; the setup (conn.go:645-653) runs at most once in a call and starts with [Init]. *)
Inductive shakes (c k : nat) : list act -> Prop :=
| shakes_on a : busy c a -> shakes c k a
| shakes_setup a i b : busy c a -> configures k i -> busy c b -> shakes c k (a ++ i ++ b).

(** A call, and its steps in a run of it. *)
Inductive apicall := CallRead (c k : nat) | CallWrite (c : nat) | CallHandshake (c k : nat) | CallUpdate (c : nat) | CallClone (k : nat) | CallOther.
Inductive does_call : apicall -> list act -> Prop :=
(** conn.go:414-450: a call that returns before it takes the lock *)
| read_early c k a : shakes c k a -> does_call (CallRead c k) a
(** conn.go:414-468 *)
| read_locked c k a b : shakes c k a -> busy c b -> does_call (CallRead c k) (a ++ Take (InputOf c) :: b ++ [Drop (InputOf c)])
(** conn.go:471-508 *)
| write_locked c n : does_call (CallWrite c) (Take (OutputOf c) :: repeat Work n ++ [Drop (OutputOf c)])
(** conn.go:728-837 *)
| handshake_ c k a : shakes c k a -> does_call (CallHandshake c k) a
(** conn.go:839-866 *)
| update_ c a : busy c a -> does_call (CallUpdate c) a
(** conn.go:141-173, tls.go:132 *)
| clone_ k a : configures k a -> does_call (CallClone k) a
(** conn.go:538-573 and the getters *)
| other_ n : does_call CallOther (repeat Work n).

(** A goroutine: the locks it holds, and what it has to do. *)
Record worker := mkWorker { k_held : list lock; k_todo : list act }.
(** [fatal]: an [Unlock] of a lock that the goroutine does not hold. (Go ends the program if nobody holds it.) *)
Record yard := mkYard { y_workers : list worker; y_fatal : bool }.

Fixpoint rem1 (l : lock) (held : list lock) : list lock := match held with [] => [] | m :: held => if lock_eq l m then held else m :: rem1 l held end.
Definition holds (l : lock) (w : worker) : bool := if in_dec lock_eq l (k_held w) then true else false.
Fixpoint set_worker (t : nat) (w : worker) (ws : list worker) : list worker :=
  match ws, t with [], _ => [] | _ :: ws, O => w :: ws | v :: ws, S t => v :: set_worker t w ws end.
(** One step of goroutine [t]; none if it waits for a lock. *)
Definition move (t : nat) (y : yard) : yard :=
  match nth_error (y_workers y) t with
  | None => y
  | Some w =>
      match k_todo w with
      | [] => y
      | (Await | Work) :: todo => mkYard (set_worker t (mkWorker (k_held w) todo) (y_workers y)) (y_fatal y)
      | Take l :: todo => if existsb (holds l) (y_workers y) then y else mkYard (set_worker t (mkWorker (l :: k_held w) todo) (y_workers y)) (y_fatal y)
      | Drop l :: todo => mkYard (set_worker t (mkWorker (rem1 l (k_held w)) todo) (y_workers y)) (y_fatal y || negb (holds l w))
      end
  end.
Definition go (schedule : list nat) (y : yard) : yard := fold_left (fun y t => move t y) schedule y.
(** Goroutines that are about to start: each has its calls to make one after another, with their steps. *)
Definition opening (work : list (list (apicall * list act))) : yard := mkYard (map (fun calls => mkWorker [] (concat (map snd calls))) work) false.
