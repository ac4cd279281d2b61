(** Model of /repo/timer.go. Timers are objects reached through pointers, and [check] appends to a prefix of
    the slice it is iterating over, so both the timer objects and the backing arrays are explicit. *)
From Verif Require Import Base Record.

Section Timer.
Context {C : Type}.   (* what a callback is *)

(** timer.go:13-18; [duration] is never read. Times are milliseconds. *)
Record timer := mkT { tm_label : string; tm_cb : option C; tm_deadline : N }.

(** timer.go:20-22. [ts_arrays] are the arrays ever allocated (a nil pointer is [None]); the slice is the
    first [ts_len] places of array [ts_cur]; the capacity is the length of the array. *)
Record tset := mkTs { ts_objs : list timer; ts_arrays : list (list (option nat)); ts_cur : nat; ts_len : nat }.

(** timer.go:24-26 *)
Definition newTimerSet : tset := mkTs [] [[]] 0 0.

Definition array (s : tset) (a : nat) : list (option nat) := nth a (ts_arrays s) [].
Definition slice (s : tset) : list (option nat) := firstn (ts_len s) (array s (ts_cur s)).
Definition no_timer : timer := mkT "" None 0.
Definition obj (s : tset) (p : option nat) : timer := match p with Some i => nth i (ts_objs s) no_timer | None => no_timer end.

(** timer.go:38-44: how many entries come before the new one. *)
Fixpoint insert_pos (s : tset) (deadline : N) (l : list (option nat)) : nat :=
  match l with
  | [] => O
  | p :: l => if deadline <? tm_deadline (obj s p) then O else S (insert_pos s deadline l)
  end.

(** timer.go:28-53 *)
Definition start (now : N) (label : string) (cb : C) (delayMs : N) (s : tset) : tset :=
  let t := mkT label (Some cb) (now + delayMs) in
  let l := slice s in
  let i := insert_pos s (tm_deadline t) l in
  let tmp := firstn i l ++ [Some (List.length (ts_objs s))] ++ skipn i l in
  mkTs (ts_objs s ++ [t]) (ts_arrays s ++ [tmp]) (List.length (ts_arrays s)) (List.length tmp).

(** timer.go:61: [ts.ts = append(ts.ts[:i], ts.ts[:i+1]...)]. Reslicing beyond the capacity panics; appending
    within it overwrites the array; beyond it a new array is allocated, with [grow] spare places. *)
Definition reappend (grow : nat -> nat) (i : nat) (s : tset) : res tset :=
  let a := array s (ts_cur s) in
  if (List.length a <? i + 1)%nat then Panic else
  let new := firstn i a ++ firstn (i + 1) a in
  if (List.length new <=? List.length a)%nat
  then Ok (mkTs (ts_objs s) (set_nth (ts_cur s) (new ++ skipn (List.length new) a) (ts_arrays s)) (ts_cur s) (List.length new))
  else Ok (mkTs (ts_objs s) (ts_arrays s ++ [new ++ repeat None (grow (List.length new))]) (List.length (ts_arrays s)) (List.length new)).

(** timer.go:65: [t.cb = nil] *)
Definition disarm (i : nat) (s : tset) : tset :=
  let t := nth i (ts_objs s) no_timer in
  mkTs (set_nth i (mkT (tm_label t) None (tm_deadline t)) (ts_objs s)) (ts_arrays s) (ts_cur s) (ts_len s).

(** timer.go:118-122 *)
Definition cancel_at (i : nat) (s : tset) : tset :=
  let t := nth i (ts_objs s) no_timer in
  mkTs (set_nth i (mkT "" None (tm_deadline t)) (ts_objs s)) (ts_arrays s) (ts_cur s) (ts_len s).
(** timer.go:89-95 *)
Definition cancel (label : string) (s : tset) : tset :=
  fold_left (fun s p => match p with
                        | Some i => if String.eqb (tm_label (nth i (ts_objs s) no_timer)) label then cancel_at i s else s
                        | None => s end) (slice s) s.

(** timer.go:79-87: the deadline of the first armed timer. *)
Fixpoint first_armed (s : tset) (l : list (option nat)) : option N :=
  match l with
  | [] => None
  | p :: l => match tm_cb (obj s p) with Some _ => Some (tm_deadline (obj s p)) | None => first_armed s l end
  end.
Definition remaining (s : tset) : option N := first_armed s (slice s).

(** timer.go:97-104: is there an armed timer with this label? *)
Definition getTimer (label : string) (s : tset) : bool :=
  existsb (fun p => String.eqb (tm_label (obj s p)) label && match tm_cb (obj s p) with Some _ => true | None => false end) (slice s).

(** timer.go:106-116 *)
Definition getAllTimers (s : tset) : list string :=
  concat (map (fun p => match tm_cb (obj s p) with Some _ => [tm_label (obj s p)] | None => [] end) (slice s)).

(** timer.go:58-76, over any state [X] that contains the timer set; [fire] runs a callback. The loop ranges over
    the slice as it was at the start: [a0] is its array, and the element is read from the array at each step. *)
Fixpoint check_loop {X} (get : X -> tset) (put : tset -> X -> X) (fire : C -> X -> X * res unit) (grow : nat -> nat)
    (now : N) (a0 : nat) (todo i : nat) (x : X) {struct todo} : X * res unit :=
  match todo with
  | O => (x, Ok tt)
  | S todo =>
      match nth i (array (get x) a0) None with
      | None => (x, Panic)
      | Some id =>
          let t := nth id (ts_objs (get x)) no_timer in
          if tm_deadline t <? now then
            match reappend grow i (get x) with
            | Ok s =>
                match tm_cb t with
                | None => check_loop get put fire grow now a0 todo (S i) (put s x)
                | Some cb =>
                    match fire cb (put (disarm id s) x) with
                    | (x, Ok _) => check_loop get put fire grow now a0 todo (S i) x
                    | (x, r) => (x, r)
                    end
                end
            | Err e => (x, Err e) | Panic => (x, Panic) | Fuel => (x, Fuel)
            end
          else (x, Ok tt)
      end
  end.
Definition check {X} (get : X -> tset) (put : tset -> X -> X) (fire : C -> X -> X * res unit) (grow : nat -> nat) (now : N) (x : X) : X * res unit :=
  check_loop get put fire grow now (ts_cur (get x)) (List.length (slice (get x))) 0 x.

End Timer.
Arguments timer : clear implicits.
Arguments tset : clear implicits.
