(** Property C74: no calls of the API wait for each other for ever, and a [Read] that waits for the transport keeps only other calls of [Read] waiting. *)
From Verif Require Import Base Locks LockSpec.

(** The order in which locks are taken. *)
Definition rank (l : lock) : nat := match l with InputOf _ | OutputOf _ => 0 | AlertsOf _ => 1 | ConfigOf _ => 2 end.
Definition is_input (l : lock) : Prop := match l with InputOf _ => True | _ => False end.
Fixpoint sound (held : list lock) (todo : list act) : Prop :=
  match todo with
  | [] => held = []
  | Work :: todo => sound held todo
  | Await :: todo => (forall m, In m held -> is_input m) /\ sound held todo
  | Take l :: todo => (forall m, In m held -> (rank m < rank l)%nat) /\ sound (l :: held) todo
  | Drop l :: todo => exists rest, held = l :: rest /\ sound rest todo
  end.
Lemma sound_app a : forall held b, sound held a -> sound [] b -> sound held (a ++ b).
Proof.
  induction a as [|[l|l| |] a IH]; intros held b Sa Sb; cbn [List.app sound] in *.
  - now subst held.
  - destruct Sa as [R Sa]. auto.
  - destruct Sa as (rest & E & Sa). exists rest. auto.
  - destruct Sa as [R Sa]. auto.
  - auto.
Qed.
Lemma sound_work n held a : sound held a -> sound held (repeat Work n ++ a).
Proof. intros S. induction n as [|n IH]; [exact S|exact IH]. Qed.
(** What is sound after locks of lower ranks. *)
Lemma busy_sound c a : busy c a -> forall held b, (forall m, In m held -> is_input m) -> sound held b -> sound held (a ++ b).
Proof.
  induction 1 as [|a B IH|a B IH|n a B IH]; intros held b R S; cbn [List.app sound]; [exact S|now apply IH|split; [exact R|now apply IH]|]. split; [intros m Hm; specialize (R m Hm); destruct m; try destruct R; cbn [rank]; lia|].
  rewrite <- app_assoc. apply sound_work. cbn [List.app sound]. exists held. split; [reflexivity|]. now apply IH.
Qed.
Lemma busy_alone c a : busy c a -> sound [] a.
Proof. intros B. rewrite <- (app_nil_r a). eapply busy_sound; [exact B|intros m []|reflexivity]. Qed.
Lemma configures_sound k a : configures k a -> sound [] a.
Proof. intros [n]. cbn [sound]. split; [intros m []|]. apply sound_work. cbn [sound]. exists []. split; reflexivity. Qed.
Lemma shakes_sound c k a : shakes c k a -> sound [] a.
Proof. intros [a' B|a' i b B C B']; [eapply busy_alone; exact B|]. apply sound_app; [eapply busy_alone; exact B|]. apply sound_app; [eapply configures_sound; exact C|eapply busy_alone; exact B']. Qed.
Lemma call_sound p a : does_call p a -> sound [] a.
Proof.
  intros [c k a' S|c k a' b S B|c n|c k a' S|c a' B|k a' C|n].
  - eapply shakes_sound; exact S.
  - apply sound_app; [eapply shakes_sound; exact S|]. cbn [sound]. split; [intros m []|]. eapply busy_sound; [exact B|intros m [<-|[]]; exact I|]. cbn [sound]. exists []. split; reflexivity.
  - cbn [sound]. split; [intros m []|]. apply sound_work. cbn [sound]. exists []. split; reflexivity.
  - eapply shakes_sound; exact S.
  - eapply busy_alone; exact B.
  - eapply configures_sound; exact C.
  - rewrite <- (app_nil_r (repeat Work n)). now apply sound_work.
Qed.

(** ** Invariant *)

Definition calm (y : yard) : Prop := orderly_locks y /\ forall t, sound (k_held (worker_of y t)) (k_todo (worker_of y t)).
Lemma worker_set ws : forall t w u, (t < List.length ws)%nat -> nth u (set_worker t w ws) (mkWorker [] []) = if Nat.eqb t u then w else nth u ws (mkWorker [] []).
Proof. induction ws as [|v ws IH]; intros [|t] w [|u] L; cbn [List.length set_worker nth Nat.eqb] in *; try reflexivity; try lia. apply IH. lia. Qed.
Lemma free l y : existsb (holds l) (y_workers y) = false -> forall u, ~ In l (k_held (worker_of y u)).
Proof.
  intros F u H. unfold worker_of in H. destruct (Nat.lt_ge_cases u (List.length (y_workers y))) as [L|L]; [|rewrite nth_overflow in H by exact L; destruct H].
  assert (existsb (holds l) (y_workers y) = true) as K; [|congruence]. apply existsb_exists. exists (nth u (y_workers y) (mkWorker [] [])). split; [now apply nth_In|]. unfold holds. destruct (in_dec _ _ _); [reflexivity|contradiction].
Qed.
Lemma taken_by l y : existsb (holds l) (y_workers y) = true -> exists u, In l (k_held (worker_of y u)).
Proof.
  intros H. apply existsb_exists in H. destruct H as (w & Iw & Hw). unfold holds in Hw. destruct (in_dec _ _ _) as [I|]; [|discriminate Hw].
  apply In_nth with (d := mkWorker [] []) in Iw. destruct Iw as (u & _ & E). exists u. unfold worker_of. now rewrite E.
Qed.
Lemma nth_worker y t w : nth_error (y_workers y) t = Some w -> worker_of y t = w /\ (t < List.length (y_workers y))%nat.
Proof. intros H. split; [now apply nth_error_nth|]. apply nth_error_Some. congruence. Qed.
Lemma move_calm t y : calm y -> calm (move t y).
Proof.
  intros [[Fa Ex] So]. unfold move. destruct (nth_error (y_workers y) t) as [w|] eqn:Nt; [|repeat split; assumption]. destruct (nth_worker _ _ _ Nt) as [Ew Lt]. pose proof (So t) as St. rewrite Ew in St.
  assert (forall held todo fatal, fatal = false -> (forall l u, u <> t -> In l held -> ~ In l (k_held (worker_of y u))) -> sound held todo -> calm (mkYard (set_worker t (mkWorker held todo) (y_workers y)) fatal)) as K.
  { intros held todo fatal -> Al S. split; [split; [reflexivity|]|].
    - intros a b l. unfold worker_of. cbn [y_workers]. rewrite !worker_set by exact Lt. destruct (Nat.eqb_spec t a) as [<-|Na], (Nat.eqb_spec t b) as [<-|Nb]; cbn [k_held]; intros Ha Hb; [reflexivity| | |].
      + exfalso. eapply Al; [|exact Ha|exact Hb]. congruence.
      + exfalso. eapply Al; [|exact Hb|exact Ha]. congruence.
      + eapply Ex; [exact Ha|exact Hb].
    - intros u. unfold worker_of. cbn [y_workers]. rewrite worker_set by exact Lt. destruct (Nat.eqb t u); [exact S|]. apply So. }
  assert (forall l u, u <> t -> In l (k_held w) -> ~ In l (k_held (worker_of y u))) as Al by (intros l u N Hw Hu; apply N; eapply Ex; [exact Hu|now rewrite Ew]).
  destruct (k_todo w) as [|[l|l| |] todo] eqn:Td; cbn [sound] in St.
  - repeat split; assumption.
  - destruct St as [R St]. destruct (existsb (holds l) (y_workers y)) eqn:Fr; [repeat split; assumption|]. apply K; [exact Fa| |exact St].
    intros m u N [<-|Hm]; [now apply free|now apply Al].
  - destruct St as (rest & E & St). rewrite E. cbn [rem1]. destruct (lock_eq l l) as [_|]; [|congruence]. apply K; [|intros m u N Hm; apply Al; [exact N|rewrite E; now right]|exact St].
    rewrite Fa. unfold holds. rewrite E. destruct (in_dec _ _ _) as [|N]; [reflexivity|]. elim N. now left.
  - destruct St as [_ St]. apply K; [exact Fa|exact Al|exact St].
  - apply K; [exact Fa|exact Al|exact St].
Qed.
Lemma go_calm sched : forall y, calm y -> calm (go sched y).
Proof. induction sched as [|t sched IH]; intros y C; [exact C|]. apply IH, move_calm, C. Qed.
Lemma opening_calm work : api work -> calm (opening work).
Proof.
  intros A. assert (forall t, k_held (worker_of (opening work) t) = [] /\ sound [] (k_todo (worker_of (opening work) t))) as K.
  { intros t. unfold worker_of, opening. cbn [y_workers]. destruct (Nat.lt_ge_cases t (List.length work)) as [L|L]; [|rewrite nth_overflow by (rewrite map_length; exact L); split; reflexivity].
    rewrite nth_indep with (d' := mkWorker [] (concat (map snd (@nil (apicall * list act))))) by (rewrite map_length; exact L). rewrite map_nth with (f := fun calls => mkWorker [] (concat (map snd calls))). cbn [k_held k_todo]. split; [reflexivity|].
    assert (Forall (fun c : apicall * list act => does_call (fst c) (snd c)) (nth t work [])) as F by (unfold api in A; rewrite Forall_forall in A; apply A; now apply nth_In).
    induction F as [|c cs D F IH]; [reflexivity|]. cbn [map concat]. apply sound_app; [eapply call_sound; exact D|exact IH]. }
  split; [split; [reflexivity|]|].
  - intros t u l Ht. rewrite (proj1 (K t)) in Ht. destruct Ht.
  - intros t. rewrite (proj1 (K t)). apply K.
Qed.

(** ** Progress *)

Definition todo_left (y : yard) : nat := list_sum (map (fun w => List.length (k_todo w)) (y_workers y)).
Lemma sum_less ws : forall t w, (t < List.length ws)%nat -> (List.length (k_todo w) < List.length (k_todo (nth t ws (mkWorker [] []))))%nat ->
  (list_sum (map (fun w => List.length (k_todo w)) (set_worker t w ws)) < list_sum (map (fun w => List.length (k_todo w)) ws))%nat.
Proof. induction ws as [|v ws IH]; intros [|t] w L H; cbn [List.length set_worker nth map list_sum fold_right] in *; try lia. unfold list_sum in IH. specialize (IH t w ltac:(lia) H). lia. Qed.
Lemma held_todo held todo : sound held todo -> held <> [] -> todo <> [].
Proof. intros S N ->. now apply N. Qed.
(** Some goroutine that is not stuck can go on, if the one that is to go on waits for no lock of one that is stuck. *)
Lemma mover (stuck : nat -> Prop) y n : calm y -> (forall u l, stuck u -> In l (k_held (worker_of y u)) -> rank l = 0%nat) ->
  forall t, ~ stuck t -> k_todo (worker_of y t) <> [] -> (forall l todo, k_todo (worker_of y t) = Take l :: todo -> (3 <= rank l + n)%nat /\ forall u, stuck u -> ~ In l (k_held (worker_of y u))) ->
  exists v, ~ stuck v /\ (todo_left (move v y) < todo_left y)%nat /\ forall u, u <> v -> worker_of (move v y) u = worker_of y u.
Proof.
  intros [[Fa Ex] So] Sk. induction n as [|n IH]; intros t Nt Td W.
  all: assert (t < List.length (y_workers y))%nat as Lt by (destruct (Nat.lt_ge_cases t (List.length (y_workers y))) as [L|L]; [exact L|]; elim Td; unfold worker_of; now rewrite nth_overflow).
  all: destruct (nth_error (y_workers y) t) as [w|] eqn:Ne; [|apply nth_error_None in Ne; lia]; destruct (nth_worker _ _ _ Ne) as [Ew _]; rewrite Ew in *.
  all: assert (forall held todo fatal, (List.length todo < List.length (k_todo w))%nat -> move t y = mkYard (set_worker t (mkWorker held todo) (y_workers y)) fatal ->
    exists v, ~ stuck v /\ (todo_left (move v y) < todo_left y)%nat /\ forall u, u <> v -> worker_of (move v y) u = worker_of y u) as Go
    by (intros held todo fatal L E; exists t; split; [exact Nt|]; rewrite E; split; [unfold todo_left; cbn [y_workers]; apply sum_less; [exact Lt|]; cbn [k_todo]; unfold worker_of in Ew; rewrite Ew; exact L|intros u N; unfold worker_of; cbn [y_workers]; rewrite worker_set by exact Lt; destruct (Nat.eqb_spec t u); [congruence|reflexivity]]).
  all: destruct (k_todo w) as [|[l|l| |] todo] eqn:Tw; [congruence| |eapply Go; [|unfold move; rewrite Ne, Tw; reflexivity]; cbn [List.length]; lia..].
  - destruct (W _ _ eq_refl) as [R _]. exfalso. destruct l; cbn [rank] in R; lia.
  - destruct (W _ _ eq_refl) as [R NoS]. destruct (existsb (holds l) (y_workers y)) eqn:Fr; [|eapply Go; [|unfold move; rewrite Ne, Tw, Fr; reflexivity]; cbn [List.length]; lia].
    destruct (taken_by _ _ Fr) as (u & Hu). assert (~ stuck u) as Nu by (intros K; exact (NoS u K Hu)). apply (IH u Nu).
    + eapply held_todo; [apply So|]. intros E. rewrite E in Hu. destruct Hu.
    + intros m todo' Tu. pose proof (So u) as Su. rewrite Tu in Su. destruct Su as [Rm _]. pose proof (Rm l Hu) as Rl. split; [lia|]. intros v Sv Hv. pose proof (Sk _ _ Sv Hv). lia.
Qed.
Definition waits_for_none (stuck : nat -> Prop) (y : yard) (t : nat) : Prop := forall l u, In (Take l) (k_todo (worker_of y t)) -> stuck u -> ~ In l (k_held (worker_of y u)).
Lemma move_todo t y u : exists more, k_todo (worker_of y u) = more ++ k_todo (worker_of (move t y) u).
Proof.
  assert (exists more, k_todo (worker_of y u) = more ++ k_todo (worker_of y u)) as Z by (exists []; reflexivity).
  unfold move. destruct (nth_error (y_workers y) t) as [w|] eqn:Nt; [|exact Z]. destruct (nth_worker _ _ _ Nt) as [Ew Lt].
  assert (forall held a todo fatal, k_todo w = a :: todo -> exists more, k_todo (worker_of y u) = more ++ k_todo (worker_of (mkYard (set_worker t (mkWorker held todo) (y_workers y)) fatal) u)) as K.
  { intros held a todo fatal Td. unfold worker_of at 2. cbn [y_workers]. rewrite worker_set by exact Lt. destruct (Nat.eqb_spec t u) as [<-|]; [|exact Z]. cbn [k_todo]. rewrite Ew, Td. exists [a]. reflexivity. }
  destruct (k_todo w) as [|[l|l| |] todo] eqn:Td; [exact Z| |eapply K; reflexivity..]. destruct (existsb _ _); [exact Z|]. eapply K; reflexivity.
Qed.
Lemma go_app a b y : go (a ++ b) y = go b (go a y).
Proof. apply fold_left_app. Qed.
Lemma finish (stuck : nat -> Prop) k : forall y t, calm y -> (forall u l, stuck u -> In l (k_held (worker_of y u)) -> rank l = 0%nat) -> ~ stuck t -> waits_for_none stuck y t -> (todo_left y <= k)%nat ->
  exists more, Forall (fun v => ~ stuck v) more /\ done (go more y) t.
Proof.
  assert (forall y t, calm y -> k_todo (worker_of y t) = [] -> done y t) as Dn by (intros y t [_ So] E; split; [exact E|]; pose proof (So t) as S; rewrite E in S; exact S).
  induction k as [|k IH]; intros y t C Sk Nt Wt L.
  - exists []. split; [constructor|]. apply Dn; [exact C|]. change (go [] y) with y. destruct (Nat.lt_ge_cases t (List.length (y_workers y))) as [Lt|Lt]; [|unfold worker_of; now rewrite nth_overflow].
    unfold todo_left in L. unfold worker_of. clear - L Lt. revert t Lt. induction (y_workers y) as [|w ws IH]; intros [|t] Lt; cbn [List.length nth map list_sum fold_right] in *; try lia; [destruct (k_todo w); [reflexivity|cbn [List.length] in L; lia]|]. apply IH; [unfold list_sum; lia|lia].
  - destruct (k_todo (worker_of y t)) as [|a todo] eqn:Td; [exists []; split; [constructor|now apply Dn]|].
    destruct (mover stuck y 3 C Sk t Nt) as (v & Nv & Lv & Same); [congruence| |].
    { intros l todo' E. split; [lia|]. intros u Su. apply (Wt l u); [rewrite E; now left|exact Su]. }
    assert (forall u, stuck u -> worker_of (move v y) u = worker_of y u) as Ks by (intros u Su; apply Same; intros ->; contradiction).
    destruct (IH (move v y) t) as (more & F & D); [now apply move_calm| |exact Nt| |lia|].
    + intros u l Su. rewrite (Ks u Su). now apply Sk.
    + intros l u I Su. rewrite (Ks u Su). destruct (move_todo v y t) as (pre & E). apply (Wt l u); [rewrite E; apply in_or_app; now right|exact Su].
    + exists (v :: more). split; [now constructor|exact D].
Qed.
Lemma done_stays sched t : forall y, done y t -> done (go sched y) t.
Proof.
  induction sched as [|v sched IH]; intros y D; [exact D|]. apply IH. destruct D as [Dt Dh]. unfold move. destruct (nth_error (y_workers y) v) as [w|] eqn:Nv; [|now split]. destruct (nth_worker _ _ _ Nv) as [Ew Lv].
  assert (forall held a todo fatal, k_todo w = a :: todo -> done (mkYard (set_worker v (mkWorker held todo) (y_workers y)) fatal) t) as K.
  { intros held a todo fatal E. unfold done, worker_of. cbn [y_workers]. rewrite worker_set by exact Lv. destruct (Nat.eqb_spec v t) as [->|]; [rewrite Ew in Dt; congruence|]. now split. }
  destruct (k_todo w) as [|[l|l| |] todo] eqn:Td; [now split| |eapply K; reflexivity..]. destruct (existsb _ _); [now split|]. eapply K; reflexivity.
Qed.
Lemma locks_order work schedule : api work -> orderly_locks (go schedule (opening work)).
Proof. intros A. apply go_calm, opening_calm, A. Qed.
Lemma locks_live work schedule : api work -> exists more, forall t, done (go (schedule ++ more) (opening work)) t.
Proof.
  intros A. pose proof (go_calm schedule _ (opening_calm _ A)) as C. set (y := go schedule (opening work)) in *.
  assert (forall n, exists more, forall t, (t < n)%nat -> done (go more y) t) as K.
  { induction n as [|n (more & H)]; [exists []; intros t L; lia|]. pose proof (go_calm more _ C) as C'.
    destruct (finish (fun _ => False) (todo_left (go more y)) (go more y) n C') as (m2 & _ & D); [intros u l []|intros []|intros l u _ []|lia|].
    exists (more ++ m2). intros t L. rewrite go_app. destruct (Nat.eq_dec t n) as [->|N]; [exact D|]. apply done_stays, H. lia. }
  destruct (K (List.length (y_workers y))) as (more & H). exists more. intros t. rewrite go_app. fold y.
  destruct (Nat.lt_ge_cases t (List.length (y_workers y))) as [L|L]; [now apply H|]. apply done_stays. unfold done, worker_of. rewrite nth_overflow by exact L. split; reflexivity.
Qed.
Lemma go_todo sched u : forall y, exists more, k_todo (worker_of y u) = more ++ k_todo (worker_of (go sched y) u).
Proof. induction sched as [|t sched IH]; intros y; [exists []; reflexivity|]. destruct (move_todo t y u) as (a & ->). destruct (IH (move t y)) as (b & E). exists (a ++ b). rewrite <- app_assoc. cbn [go fold_left]. fold (go sched (move t y)). now rewrite <- E. Qed.
Lemma busy_takes c a l : busy c a -> In (Take l) a -> ~ is_input l.
Proof.
  induction 1 as [|a B IH|a B IH|n a B IH]; cbn [In]; [intros []|intros [E|H]; [discriminate E|auto]..|]. intros [E|H]; [injection E as <-; intros []|]. apply in_app_or in H. destruct H as [H|H]; [apply repeat_spec in H; discriminate H|]. destruct H as [E|H]; [discriminate E|auto].
Qed.
Lemma configures_takes k a l : configures k a -> In (Take l) a -> ~ is_input l.
Proof. intros [n] [E|H]; [injection E as <-; intros []|]. apply in_app_or in H. destruct H as [H|[E|[]]]; [apply repeat_spec in H; discriminate H|discriminate E]. Qed.
Lemma shakes_takes c k a l : shakes c k a -> In (Take l) a -> ~ is_input l.
Proof.
  intros [a' B|a' i b B C B'] H; [eapply busy_takes; eassumption|]. apply in_app_or in H. destruct H as [H|H]; [eapply (busy_takes _ _ _ B); exact H|]. apply in_app_or in H. destruct H as [H|H]; [eapply configures_takes; eassumption|eapply (busy_takes _ _ _ B'); exact H].
Qed.
Lemma call_takes p a l : does_call p a -> In (Take l) a -> is_input l -> exists c k, p = CallRead c k.
Proof.
  intros [c k a' S|c k a' b S B|c n|c k a' S|c a' B|k a' C|n] H Il; [eauto|eauto| | | | |].
  - exfalso. destruct H as [E|H]; [injection E as <-; exact Il|]. apply in_app_or in H. destruct H as [H|[E|[]]]; [apply repeat_spec in H; discriminate H|discriminate E].
  - exfalso. exact (shakes_takes _ _ _ _ S H Il).
  - exfalso. exact (busy_takes _ _ _ B H Il).
  - exfalso. exact (configures_takes _ _ _ C H Il).
  - exfalso. apply repeat_spec in H. discriminate H.
Qed.
Lemma locks_duplex work schedule (stuck : nat -> Prop) t : api work -> let y := go schedule (opening work) in
  waiting y stuck -> ~ stuck t -> no_reader (nth t work []) ->
  exists more, Forall (fun v => ~ stuck v) more /\ done (go (schedule ++ more) (opening work)) t.
Proof.
  intros A y Wa Nt Nr. assert (calm y) as C by (apply go_calm, opening_calm, A).
  assert (forall u l, stuck u -> In l (k_held (worker_of y u)) -> is_input l) as Sk.
  { intros u l Su Hl. destruct (Wa u Su) as (todo & E). pose proof (proj2 C u) as S. rewrite E in S. now apply (proj1 S). }
  assert (forall l, In (Take l) (k_todo (worker_of y t)) -> ~ is_input l) as Wt.
  { intros l Hl Il. destruct (go_todo schedule t (opening work)) as (pre & E). fold y in E.
    assert (In (Take l) (k_todo (worker_of (opening work) t))) as H by (rewrite E; apply in_or_app; now right).
    unfold worker_of, opening in H. cbn [y_workers] in H. destruct (Nat.lt_ge_cases t (List.length work)) as [L|L]; [|rewrite nth_overflow in H by (rewrite map_length; exact L); destruct H].
    rewrite nth_indep with (d' := mkWorker [] (concat (map snd (@nil (apicall * list act))))) in H by (rewrite map_length; exact L). rewrite map_nth with (f := fun calls => mkWorker [] (concat (map snd calls))) in H. cbn [k_todo] in H.
    apply in_concat in H. destruct H as (a & Ha & Hl'). apply in_map_iff in Ha. destruct Ha as ([p a'] & <- & Hp). cbn [snd] in Hl'.
    assert (does_call p a') as D by (unfold api in A; rewrite Forall_forall in A; specialize (A (nth t work []) (nth_In _ _ L)); rewrite Forall_forall in A; exact (A _ Hp)).
    destruct (call_takes _ _ _ D Hl' Il) as (c & k & ->). exact (Nr _ _ _ Hp). }
  destruct (finish stuck (todo_left y) y t C) as (more & F & D).
  - intros u l Su Hl. pose proof (Sk u l Su Hl) as I. destruct l; try destruct I. reflexivity.
  - exact Nt.
  - intros l u Il Su Hl. exact (Wt l Il (Sk u l Su Hl)).
  - lia.
  - exists more. split; [exact F|]. rewrite go_app. exact D.
Qed.

(** C74. Under all schedules no lock has two holders, and none is dropped by a goroutine that does not hold it; *)
Theorem C74_exclusion : forall work schedule, api work -> orderly_locks (go schedule (opening work)).
Proof. exact locks_order. Qed.
Print Assumptions C74_exclusion.
(** from every moment all calls can be ended; *)
Theorem C74_no_deadlock : forall work schedule, api work -> exists more, forall t, done (go (schedule ++ more) (opening work)) t.
Proof. exact locks_live. Qed.
Print Assumptions C74_no_deadlock.
(** and if some goroutines wait for the transport for ever, one that does not call [Read] can end its calls. *)
Theorem C74_duplex : forall work schedule (stuck : nat -> Prop) t, api work -> let y := go schedule (opening work) in
  waiting y stuck -> ~ stuck t -> no_reader (nth t work []) ->
  exists more, Forall (fun v => ~ stuck v) more /\ done (go (schedule ++ more) (opening work)) t.
Proof. exact locks_duplex. Qed.
Print Assumptions C74_duplex.

(** A goroutine that reads, and waits for the transport with the lock of its input; another that waits for that lock; one that writes and then sends a key update that fails,
    with an alert; one that sets up a second connection and clones its configuration, which waits for the first to leave it. *)
Definition locks_work : list (list (apicall * list act)) :=
  [[(CallRead 0 0, [Work; Take (InputOf 0); Await; Take (AlertsOf 0); Work; Drop (AlertsOf 0); Drop (InputOf 0)])];
   [(CallRead 0 0, [Take (InputOf 0); Work; Drop (InputOf 0)])];
   [(CallWrite 0, [Take (OutputOf 0); Work; Work; Drop (OutputOf 0)]); (CallUpdate 0, [Work; Take (AlertsOf 0); Work; Drop (AlertsOf 0)])];
   [(CallHandshake 1 0, [Take (ConfigOf 0); Work; Drop (ConfigOf 0); Work])]; [(CallClone 0, [Take (ConfigOf 0); Work; Drop (ConfigOf 0)])]].
Example C74_case : api locks_work /\
  let y := go [0; 3; 0; 1; 4; 1; 2; 2; 4; 3; 2]%nat (opening locks_work) in
  map k_held (y_workers y) = [[InputOf 0]; []; [OutputOf 0]; [ConfigOf 0]; []] /\ map (fun w => List.length (k_todo w)) (y_workers y) = [5; 3; 5; 2; 3]%nat /\
  y = go [1; 4; 1]%nat y /\ waiting y (fun t => t = 0%nat) /\ no_reader (nth 2 locks_work []) /\ done (go [2; 2; 2; 2; 2]%nat y) 2.
Proof.
  split.
  - assert (shakes 0 0 []) as S0 by (apply shakes_on; constructor). assert (busy 0 [Work]) as B1 by (repeat constructor).
    unfold api, locks_work. repeat (apply Forall_cons || apply Forall_nil); cbn [fst snd].
    + apply (read_locked 0 0 [Work] (Await :: Take (AlertsOf 0) :: repeat Work 1 ++ [Drop (AlertsOf 0)])); [now apply shakes_on|]. apply busy_await. apply (busy_alert 0 1 []). constructor.
    + apply (read_locked 0 0 [] [Work]); assumption.
    + apply (write_locked 0 2).
    + apply update_. apply busy_work. apply (busy_alert 0 1 []). constructor.
    + apply handshake_. apply (shakes_setup 1 0 [] (Take (ConfigOf 0) :: repeat Work 1 ++ [Drop (ConfigOf 0)]) [Work]); repeat constructor.
    + apply clone_. apply (configures_ 0 1).
  - cbv zeta. split; [reflexivity|]. split; [reflexivity|]. split; [reflexivity|]. split; [intros t ->; eexists; reflexivity|]. split; [|split; reflexivity].
    intros c k a H. cbn [locks_work nth In] in H. destruct H as [H|[H|[]]]; discriminate H.
Qed.
