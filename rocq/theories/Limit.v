(** Model of the time limit of /repo/tls.go:92-169: the goroutine of the caller, the timer, the goroutine of the handshake, and the channel between them. *)
From Verif Require Import Base.

(** tls.go:100-107. Nanoseconds; [deadline] is [None] for the zero time. [Sub] is taken not to overflow. The timer runs if the result is not 0 (tls.go:111). *)
Definition limitOf (timeout : Z) (deadline : option Z) (now : Z) : Z :=
  match deadline with
  | None => timeout
  | Some d => let left := (d - now)%Z in if (timeout =? 0)%Z || (left <? timeout)%Z then left else timeout
  end.

(** tls.go:113-115: the function that the timer runs in a goroutine of its own. It is never stopped. *)
Inductive timer := NoTimer | Armed | Fired | TimerDone.
(** tls.go:153-155: the goroutine of the handshake; [Shook ok]: [Handshake] has returned, with or without success. *)
Inductive shaker := NoShaker | Shaking | Shook (ok : bool) | ShakerDone.
(** The caller: in [dialer.Dial] (tls.go:118), in [Handshake] without a limit (tls.go:148), waiting for the channel (tls.go:157), returned with a connection or an error (tls.go:163-168). *)
Inductive caller := Dialling | ShakingAlone | Waiting | Returned (connection : bool).
Inductive message := TimedOut | Result (ok : bool).
(** [closed]: the raw connection is closed; [dialled]: there is one; [outcome]: what [Handshake] returned. *)
Record dialing := mkDialing { d_timer : timer; d_shaker : shaker; d_caller : caller; d_channel : list message; d_dialled : bool; d_closed : bool; d_outcome : option bool }.
(** tls.go:112 *)
Definition capacity : nat := 2.
(** tls.go:109-117 *)
Definition dial_start (limit : Z) : dialing := mkDialing (if (limit =? 0)%Z then NoTimer else Armed) NoShaker Dialling [] false false None.

(** What can happen next. The network decides about [NetDials] and [NetShakes]; the rest goes on by itself. *)
Inductive happening := TimeUp | TimerSends | NetDials (ok : bool) | NetShakes (ok : bool) | ShakeBreaks | ShakerSends | CallerReceives.
(** tls.go:111-168. *)
Definition happen (s : dialing) (h : happening) : option dialing :=
  let '(mkDialing t k c ch di cl oc) := s in
  match h with
  | TimeUp => match t with Armed => Some (mkDialing Fired k c ch di cl oc) | _ => None end
  | TimerSends => match t with Fired => if (List.length ch <? capacity)%nat then Some (mkDialing TimerDone k c (ch ++ [TimedOut]) di cl oc) else None | _ => None end
  | NetDials ok =>
      match c with
      | Dialling =>
          if negb ok then Some (mkDialing t k (Returned false) ch di cl oc)
          else match t with
               | NoTimer => Some (mkDialing t k ShakingAlone ch true cl oc)
               | _ => Some (mkDialing t Shaking Waiting ch true cl oc)
               end
      | _ => None
      end
  | NetShakes ok =>
      match c, k with
      | ShakingAlone, _ => Some (mkDialing t k (Returned ok) ch di (negb ok) (Some ok))
      | _, Shaking => if cl then None else Some (mkDialing t (Shook ok) c ch di cl (Some ok))
      | _, _ => None
      end
  (* a handshake over a connection that is closed ends with an error *)
  | ShakeBreaks => match k with Shaking => if cl then Some (mkDialing t (Shook false) c ch di cl (Some false)) else None | _ => None end
  | ShakerSends => match k with Shook ok => if (List.length ch <? capacity)%nat then Some (mkDialing t ShakerDone c (ch ++ [Result ok]) di cl oc) else None | _ => None end
  | CallerReceives =>
      match c, ch with
      | Waiting, m :: ch => let ok := match m with Result ok => ok | TimedOut => false end in Some (mkDialing t k (Returned ok) ch di (negb ok) oc)
      | _, _ => None
      end
  end.
(** A sequence of such events. *)
Fixpoint happens (s : dialing) (hs : list happening) : option dialing :=
  match hs with [] => Some s | h :: hs => match happen s h with Some s => happens s hs | None => None end end.
