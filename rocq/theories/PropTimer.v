(** C23: timers. The definitions of [armed], [due], [reachable] and [history] are at the top of TimerProofs. *)
From Verif Require Import Base Timer TimerProofs.
From Coq Require Import Sorting.Sorted Sorting.Permutation.

Definition quiet : @reaction string := {| starts := fun _ => []; fails := fun _ => None |}.
Definition two_set : tset string := start 0 "a" "A"%string 20 (start 0 "b" "B"%string 10 newTimerSet).
Definition three_set : tset string := start 0 "c" "C"%string 15 two_set.

(** The armed timers are kept in deadline order, whatever was started, cancelled, fired or lost before. *)
Theorem C23_order :
  forall (C : Type) (clock : N) (s : tset C), reachable clock s -> by_deadline (armed s).
Proof. exact @armed_sorted. Qed.
Print Assumptions C23_order.

(** Starting a timer adds it and disturbs no other armed timer. *)
Theorem C23_start :
  forall (C : Type) (clock now : N) (label : string) (c : C) (d : N) (s : tset C), reachable clock s ->
    exists a b, armed s = a ++ b /\ armed (start now label c d s) = a ++ [mkT label (Some c) (now + d)] ++ b.
Proof. exact @start_armed. Qed.
Print Assumptions C23_start.

(** [remaining] reports the earliest armed deadline. *)
Theorem C23_remaining :
  forall (C : Type) (clock : N) (s : tset C), reachable clock s ->
    match remaining s with
    | None => armed s = []
    | Some d => (exists t, In t (armed s) /\ tm_deadline t = d) /\ forall t, In t (armed s) -> d <= tm_deadline t
    end.
Proof. exact @remaining_spec. Qed.
Print Assumptions C23_remaining.

(** A check runs only callbacks of armed timers whose deadline has passed, in deadline order, and never panics.
    It changes nothing if nothing is due. Missing from the full property: that it runs all of them, and keeps the
    others. *)
Theorem C23_check_partial :
  forall (C : Type) (clock now : N) (R : @reaction C) (grow : nat -> nat) (s : tset C), reachable clock s -> clock <= now ->
    exists s' log r sub, do_check R grow now s = ((s', log), r) /\ log = cbs sub /\ sublist sub (due now (armed s)) /\
      (r = Ok tt \/ exists c e, r = Err e /\ fails R c = Some e) /\
      ((forall t, In t (entries s) -> now <= tm_deadline t) -> s' = s).
Proof. exact @check_safe. Qed.
Print Assumptions C23_check_partial.

(** Over a whole history no callback runs more often than it was started. *)
Theorem C23_at_most_once :
  forall (C : Type) (s : tset C) (started fired : list C), history s started fired -> exists rest, Permutation started (fired ++ rest).
Proof. exact @at_most_once. Qed.
Print Assumptions C23_at_most_once.

(** With at most two entries in the list every due timer fires. *)
Theorem C23_two_partial :
  forall (C : Type) (clock now : N) (R : @reaction C) (grow : nat -> nat) (s s' : tset C) (log : list C), reachable clock s -> clock <= now ->
    (List.length (entries s) <= 2)%nat -> do_check R grow now s = ((s', log), Ok tt) -> log = cbs (due now (armed s)).
Proof. exact @small_fires. Qed.
Print Assumptions C23_two_partial.

Example C23_case :
  reachable 0 three_set /\ cbs (armed three_set) = ["B"; "C"; "A"]%string /\ remaining three_set = Some 10 /\
  (List.length (entries two_set) <= 2)%nat /\
  do_check quiet (fun _ => O) 50 two_set = (fst (do_check quiet (fun _ => O) 50 two_set), Ok tt) /\
  snd (fst (do_check quiet (fun _ => O) 50 two_set)) = ["B"; "A"]%string /\
  history three_set ["B"; "A"; "C"]%string [].
Proof.
  split; [apply re_start with 0; [apply re_start with 0; [apply re_start with 0; [constructor|]|]|]; discriminate|].
  do 2 (split; [reflexivity|]). split; [simpl; repeat constructor|]. do 2 (split; [reflexivity|]).
  apply (hi_start 0 "c" "C"%string 15 two_set ["B"; "A"]%string).
  apply (hi_start 0 "a" "A"%string 20 (start 0 "b" "B"%string 10 newTimerSet) ["B"%string]).
  apply (hi_start 0 "b" "B"%string 10 newTimerSet []). constructor.
Qed.

(** A timer that is not yet due is dropped when another fires. *)
Theorem C23_later_lost_refuted :
  exists (s : tset string) (now : N), reachable 0 s /\
    (exists t, In t (armed s) /\ now <= tm_deadline t) /\
    let '((s', log), r) := do_check quiet (fun _ => O) now s in r = Ok tt /\ log = ["B"%string] /\ armed s' = [].
Proof.
  exists two_set, 15. split; [apply re_start with 0; [apply re_start with 0; [constructor|]|]; discriminate|].
  split; [exists (mkT "a" (Some "A"%string) 20); split; [right; now left|discriminate]|].
  vm_compute. repeat split.
Qed.
Print Assumptions C23_later_lost_refuted.

(** With three timers due, the last does not fire and is dropped. *)
Theorem C23_due_lost_refuted :
  exists (s : tset string) (now : N), reachable 0 s /\ cbs (due now (armed s)) = ["B"; "C"; "A"]%string /\
    let '((s', log), r) := do_check quiet (fun _ => O) now s in r = Ok tt /\ log = ["B"; "C"]%string /\ armed s' = [].
Proof.
  exists three_set, 50. split; [apply C23_case|]. split; [reflexivity|]. vm_compute. repeat split.
Qed.
Print Assumptions C23_due_lost_refuted.
