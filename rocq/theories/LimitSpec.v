(** C75: a call of [Dial] with a time limit. *)
From Verif Require Import Base Limit.

(** Without the help of the network. *)
Definition by_itself (h : happening) : Prop := match h with NetDials _ | NetShakes _ => False | _ => True end.
Definition returned (s : dialing) : Prop := exists ok, d_caller s = Returned ok.
(** No goroutine of the call is left. *)
Definition all_over (s : dialing) : Prop := (d_timer s = NoTimer \/ d_timer s = TimerDone) /\ (d_shaker s = NoShaker \/ d_shaker s = ShakerDone).
(** Nothing more can happen without the network. *)
Definition quiet (s : dialing) : Prop := forall h, by_itself h -> happen s h = None.
(** The moment at which the call should end at the latest: the earlier of [Timeout] from now and [Deadline], if they are set. *)
Definition latest (timeout : Z) (deadline : option Z) (now : Z) : option Z :=
  match timeout, deadline with
  | 0%Z, None => None
  | 0%Z, Some d => Some d
  | t, None => Some (now + t)%Z
  | t, Some d => Some (Z.min (now + t) d)
  end.
