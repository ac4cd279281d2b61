(** Specification of timer sets, and proofs. *)
From Verif Require Import Base Record RecordProofs RecordProofs2 Timer.
From Coq Require Import Sorting.Sorted Sorting.Permutation.

Section TimerProofs.
Context {C : Type}.
Notation tset := (tset C).
Notation timer := (timer C).

(** ** Specification *)

(** The armed timers of a set, in list order. *)
Definition is_armed (t : timer) : bool := match tm_cb t with Some _ => true | None => false end.
Definition entries (s : tset) : list timer := map (obj s) (slice s).
Definition armed (s : tset) : list timer := filter is_armed (entries s).
Definition due (now : N) (l : list timer) : list timer := filter (fun t => tm_deadline t <? now) l.
Definition by_deadline : list timer -> Prop := StronglySorted (fun a b => tm_deadline a <= tm_deadline b).

(** One list is obtained from another by leaving elements out. *)
Inductive sublist {A} : list A -> list A -> Prop :=
| sub_nil l : sublist [] l
| sub_keep x l m : sublist l m -> sublist (x :: l) (x :: m)
| sub_drop x l m : sublist l m -> sublist l (x :: m).

(** What callbacks do: run (recorded in order), start further timers, succeed or fail. *)
Record reaction := { starts : C -> list (string * C * N); fails : C -> option err }.
Definition start_all (now : N) (l : list (string * C * N)) (s : tset) : tset :=
  fold_left (fun s p => let '(label, c, d) := p in start now label c d s) l s.
Definition logged := (tset * list C)%type.
Definition run_cb (R : reaction) (now : N) (c : C) (x : logged) : logged * res unit :=
  ((start_all now (starts R c) (fst x), snd x ++ [c]), match fails R c with Some e => Err e | None => Ok tt end).
Definition do_check (R : reaction) (grow : nat -> nat) (now : N) (s : tset) : logged * res unit :=
  check (X := logged) fst (fun s x => (s, snd x)) (run_cb R now) grow now (s, []).

(** Histories of a timer set under a clock that does not go back. *)
Inductive reachable : N -> tset -> Prop :=
| re_new clock : reachable clock newTimerSet
| re_start clock now label c d s : reachable clock s -> clock <= now -> reachable now (start now label c d s)
| re_cancel clock label s : reachable clock s -> reachable clock (cancel label s)
| re_check clock now R grow s : reachable clock s -> clock <= now ->
    reachable now (fst (fst (do_check R grow now s))).

(** The callbacks handed to [start] and the callbacks that ran, over a history. *)
Inductive history : tset -> list C -> list C -> Prop :=
| hi_new : history newTimerSet [] []
| hi_start now label c d s st fi : history s st fi -> history (start now label c d s) (st ++ [c]) fi
| hi_cancel label s st fi : history s st fi -> history (cancel label s) st fi
| hi_check now R grow s st fi s' log r : history s st fi -> do_check R grow now s = ((s', log), r) ->
    history s' (st ++ concat (map (fun c => map (fun p => snd (fst p)) (starts R c)) log)) (fi ++ log).
Definition cbs (l : list timer) : list C := concat (map (fun t => match tm_cb t with Some c => [c] | None => [] end) l).

(** ** Proofs *)

Definition valid (s : tset) (p : option nat) : Prop := exists i, p = Some i /\ (i < List.length (ts_objs s))%nat.
Definition dl (s : tset) (p : option nat) : N := tm_deadline (obj s p).
Definition dead (s : tset) (clock : N) (p : option nat) : Prop := tm_cb (obj s p) = None /\ dl s p < clock.

Definition shape (s : tset) : Prop := (ts_cur s < List.length (ts_arrays s))%nat /\ (ts_len s <= List.length (array s (ts_cur s)))%nat.
Definition split_ok (clock : N) (s : tset) (E T : list (option nat)) : Prop :=
  slice s = E ++ T /\ Forall (valid s) (E ++ T) /\ Forall (dead s clock) E /\
  StronglySorted (fun p q => dl s p <= dl s q) T /\ NoDup T.
Definition tinv (clock : N) (s : tset) : Prop := shape s /\ exists E T, split_ok clock s E T.

Lemma dead_mono s c c' p : c <= c' -> dead s c p -> dead s c' p.
Proof. intros H [A B]. split; auto. lia. Qed.
Lemma tinv_mono c c' s : c <= c' -> tinv c s -> tinv c' s.
Proof.
  intros H (S & E & T & A & B & D & F & G). split; auto. exists E, T. repeat split; auto.
  eapply Forall_impl; [|exact D]. intros p. now apply dead_mono.
Qed.

(** Objects seen through an extension of the object list. *)
Lemma obj_ext (s s' : tset) p more : ts_objs s' = ts_objs s ++ more -> valid s p -> obj s' p = obj s p.
Proof. intros H (i & -> & Hi). simpl. rewrite H. now apply app_nth1. Qed.
Lemma valid_ext (s s' : tset) p more : ts_objs s' = ts_objs s ++ more -> valid s p -> valid s' p.
Proof. intros H (i & -> & Hi). exists i. split; auto. rewrite H, app_length. lia. Qed.

Lemma slice_len s : shape s -> List.length (slice s) = ts_len s.
Proof. intros [_ H]. unfold slice. rewrite firstn_length. lia. Qed.

Lemma start_slice now label c d s : shape s ->
  slice (start now label c d s) =
    firstn (insert_pos s (now + d) (slice s)) (slice s) ++ [Some (List.length (ts_objs s))] ++ skipn (insert_pos s (now + d) (slice s)) (slice s)
  /\ shape (start now label c d s).
Proof.
  intros H. unfold start. cbn [tm_deadline].
  set (tmp := firstn _ (slice s) ++ _ ++ _).
  assert (E : array (mkTs (ts_objs s ++ [mkT label (Some c) (now + d)]) (ts_arrays s ++ [tmp]) (List.length (ts_arrays s)) (List.length tmp)) (List.length (ts_arrays s)) = tmp).
  { unfold array; cbn [ts_arrays]. rewrite app_nth2, Nat.sub_diag by lia. reflexivity. }
  split.
  - unfold slice. cbn [ts_cur ts_len]. rewrite E. apply firstn_all.
  - split; cbn [ts_cur ts_len ts_arrays]; [rewrite app_length; simpl; lia|]. rewrite E. lia.
Qed.

Lemma insert_pos_skip s d E T : Forall (fun p => dl s p <= d) E -> insert_pos s d (E ++ T) = (List.length E + insert_pos s d T)%nat.
Proof.
  induction 1 as [|p E H HE IH]; simpl; auto. fold (dl s p). destruct (N.ltb_spec d (dl s p)); [lia|]. now rewrite IH.
Qed.
Lemma insert_sorted s d T : StronglySorted (fun p q => dl s p <= dl s q) T ->
  Forall (fun p => dl s p <= d) (firstn (insert_pos s d T) T) /\ Forall (fun p => d < dl s p) (skipn (insert_pos s d T) T).
Proof.
  induction 1 as [|p T HS IH HF]; simpl; auto. fold (dl s p). destruct (N.ltb_spec d (dl s p)) as [H|H]; simpl.
  - split; auto. constructor; auto. eapply Forall_impl; [|exact HF]. simpl. intros; lia.
  - destruct IH. split; auto.
Qed.
Lemma SS_app {A} (R : A -> A -> Prop) l m : StronglySorted R l -> StronglySorted R m -> (forall x y, In x l -> In y m -> R x y) -> StronglySorted R (l ++ m).
Proof.
  induction 1 as [|x l H IH HF]; simpl; auto. intros Hm Hx. constructor.
  - apply IH; auto.
  - apply Forall_app. split; auto. apply Forall_forall. auto.
Qed.
Lemma SS_app_inv {A} (R : A -> A -> Prop) l m : StronglySorted R (l ++ m) -> StronglySorted R l /\ StronglySorted R m.
Proof.
  induction l as [|x l IH]; simpl; intros H; [split; auto; constructor|]. inversion H; subst. destruct (IH H2). split; auto.
  constructor; auto. apply Forall_app in H3. tauto.
Qed.
Lemma SS_impl {A} (R R' : A -> A -> Prop) l : (forall x y, In x l -> In y l -> R x y -> R' x y) -> StronglySorted R l -> StronglySorted R' l.
Proof.
  intros H S. induction S as [|x l S IH HF]; constructor.
  - apply IH. intros a b Ha Hb. apply H; now right.
  - apply Forall_forall. intros y Hy. rewrite Forall_forall in HF. apply H; simpl; auto.
Qed.

Lemma start_split now label c d s E T : shape s -> split_ok now s E T ->
  exists T', split_ok now (start now label c d s) E T' /\
    (forall p, In p T' <-> In p T \/ p = Some (List.length (ts_objs s))) /\
    shape (start now label c d s) /\ ts_objs (start now label c d s) = ts_objs s ++ [mkT label (Some c) (now + d)] /\
    (ts_cur (start now label c d s) = List.length (ts_arrays s)) /\
    (exists a, ts_arrays (start now label c d s) = ts_arrays s ++ [a]) /\
    ts_len (start now label c d s) = S (ts_len s).
Proof.
  intros Sh (A & B & D & F & G).
  destruct (start_slice now label c d s Sh) as [Es Sh'].
  set (s' := start now label c d s) in *.
  assert (Eo : ts_objs s' = ts_objs s ++ [mkT label (Some c) (now + d)]) by reflexivity.
  assert (Hd : Forall (fun p => dl s p <= now + d) E).
  { eapply Forall_impl; [|exact D]. intros p [_ Hp]. lia. }
  rewrite A in Es. rewrite insert_pos_skip in Es by auto.
  set (k := insert_pos s (now + d) T) in *.
  rewrite firstn_app, skipn_app in Es.
  replace (List.length E + k - List.length E)%nat with k in Es by lia.
  rewrite firstn_all2, skipn_all2 in Es by lia. rewrite <- app_assoc in Es. cbn [app] in Es.
  set (new := Some (List.length (ts_objs s))) in *.
  exists (firstn k T ++ new :: skipn k T).
  apply Forall_app in B. destruct B as [BE BT].
  assert (Vnew : valid s' new) by (exists (List.length (ts_objs s)); split; auto; rewrite Eo, app_length; simpl; lia).
  assert (Onew : obj s' new = mkT label (Some c) (now + d)).
  { unfold obj, new. rewrite Eo, app_nth2, Nat.sub_diag by lia. reflexivity. }
  assert (Vt : forall p, In p T -> valid s p) by (rewrite Forall_forall in BT; auto).
  assert (Nn : ~ In new T).
  { intros Hi. apply Vt in Hi. destruct Hi as (i & [= <-] & Hi). lia. }
  assert (Fs : forall p, In p (firstn k T) -> In p T) by (intros p Hp; rewrite <- (firstn_skipn k T); apply in_or_app; auto).
  assert (Ss : forall p, In p (skipn k T) -> In p T) by (intros p Hp; rewrite <- (firstn_skipn k T); apply in_or_app; auto).
  split; [|split; [|split; [exact Sh'|]]].
  - split; [exact Es|]. split; [|split; [|split]].
    + apply Forall_app. split; [eapply Forall_impl; [|exact BE]; intros p Hp; eapply valid_ext; eauto|].
      apply Forall_app. split; [|constructor; auto]; apply Forall_forall; intros p Hp; eapply valid_ext; eauto.
    + rewrite Forall_forall in *. intros p Hp. unfold dead, dl. rewrite (obj_ext s s' p _ Eo) by auto. apply D; auto.
    + destruct (insert_sorted s (now + d) T F) as [I1 I2]. fold k in I1, I2. rewrite Forall_forall in I1, I2.
      assert (FT : StronglySorted (fun p q => dl s' p <= dl s' q) (firstn k T ++ skipn k T)).
      { rewrite firstn_skipn. apply SS_impl with (R := fun p q => dl s p <= dl s q); auto.
        intros x y Hx Hy. unfold dl. now rewrite !(obj_ext s s' _ _ Eo) by auto. }
      apply SS_app_inv in FT. destruct FT as [F1 F2].
      assert (Dn : dl s' new = now + d) by (unfold dl; rewrite Onew; reflexivity).
      assert (De : forall p, In p T -> dl s' p = dl s p) by (intros p Hp; unfold dl; rewrite (obj_ext s s' p _ Eo); auto).
      apply SS_app; auto.
      * constructor; auto. apply Forall_forall. intros p Hp. rewrite Dn, De by auto. specialize (I2 p Hp). cbv beta in I2. lia.
      * intros x y Hx [<-|Hy].
        -- rewrite Dn, De by auto. now apply I1.
        -- rewrite !De by auto. specialize (I1 x Hx). specialize (I2 y Hy). cbv beta in *. lia.
    + rewrite <- (firstn_skipn k T) in G. apply NoDup_Add with (a := new) (l := firstn k T ++ skipn k T); [apply Add_app|].
      split; auto. now rewrite firstn_skipn.
  - intros p. rewrite in_app_iff. simpl. rewrite <- (firstn_skipn k T) at 3. rewrite in_app_iff. intuition.
  - split; [exact Eo|]. split; [reflexivity|]. split; [eexists; reflexivity|].
    rewrite <- (slice_len s' Sh'), <- (slice_len s Sh), Es, A, !app_length. cbn [List.length].
    rewrite <- (firstn_skipn k T) at 3. rewrite app_length. lia.
Qed.

Lemma start_tinv now label c d s : tinv now s -> tinv now (start now label c d s).
Proof.
  intros (Sh & E & T & H). destruct (start_split now label c d s E T Sh H) as (T' & H' & _ & Sh' & _). split; auto. now exists E, T'.
Qed.

(** Changing timer objects in place, keeping deadlines and only disarming. *)
Definition weaker (s s' : tset) : Prop :=
  ts_arrays s' = ts_arrays s /\ ts_cur s' = ts_cur s /\ ts_len s' = ts_len s /\ List.length (ts_objs s') = List.length (ts_objs s) /\
  forall p, dl s' p = dl s p /\ (tm_cb (obj s' p) = tm_cb (obj s p) \/ tm_cb (obj s' p) = None).
Lemma weaker_refl s : weaker s s.
Proof. repeat split; auto. Qed.
Lemma weaker_trans s1 s2 s3 : weaker s1 s2 -> weaker s2 s3 -> weaker s1 s3.
Proof.
  intros (A & B & C1 & D & E) (A' & B' & C' & D' & E'). repeat split; try congruence.
  - destruct (E p), (E' p). congruence.
  - destruct (E p) as [_ [X|X]], (E' p) as [_ [Y|Y]]; auto; rewrite Y; auto.
Qed.
Lemma cancel_at_weaker i s : weaker s (cancel_at i s).
Proof.
  unfold cancel_at, weaker. cbn [ts_arrays ts_cur ts_len ts_objs]. rewrite set_nth_length. repeat split; auto.
  - destruct p as [j|]; auto. unfold dl, obj. cbn [ts_objs]. destruct (Nat.eq_dec i j) as [<-|Hij]; [|now rewrite set_nth_other].
    destruct (Nat.ltb_spec i (List.length (ts_objs s))) as [L|L]; [now rewrite set_nth_same|].
    rewrite !nth_overflow by (rewrite ?set_nth_length; lia). reflexivity.
  - destruct p as [j|]; auto. unfold obj. cbn [ts_objs]. destruct (Nat.eq_dec i j) as [<-|Hij]; [|rewrite set_nth_other; auto].
    destruct (Nat.ltb_spec i (List.length (ts_objs s))) as [L|L]; [rewrite set_nth_same; auto|].
    rewrite !nth_overflow by (rewrite ?set_nth_length; lia). auto.
Qed.
Lemma disarm_weaker i s : weaker s (disarm i s).
Proof.
  unfold disarm, weaker. cbn [ts_arrays ts_cur ts_len ts_objs]. rewrite set_nth_length. repeat split; auto.
  - destruct p as [j|]; auto. unfold dl, obj. cbn [ts_objs]. destruct (Nat.eq_dec i j) as [<-|Hij]; [|now rewrite set_nth_other].
    destruct (Nat.ltb_spec i (List.length (ts_objs s))) as [L|L]; [now rewrite set_nth_same|].
    rewrite !nth_overflow by (rewrite ?set_nth_length; lia). reflexivity.
  - destruct p as [j|]; auto. unfold obj. cbn [ts_objs]. destruct (Nat.eq_dec i j) as [<-|Hij]; [|rewrite set_nth_other; auto].
    destruct (Nat.ltb_spec i (List.length (ts_objs s))) as [L|L]; [rewrite set_nth_same; auto|].
    rewrite !nth_overflow by (rewrite ?set_nth_length; lia). auto.
Qed.
Lemma weaker_slice s s' : weaker s s' -> slice s' = slice s.
Proof. intros (A & B & C1 & _). unfold slice, array. now rewrite A, B, C1. Qed.
Lemma weaker_valid s s' p : weaker s s' -> valid s p -> valid s' p.
Proof. intros (_ & _ & _ & D & _) (i & -> & H). exists i. rewrite D. auto. Qed.
Lemma weaker_dead s s' c p : weaker s s' -> dead s c p -> dead s' c p.
Proof. intros (_ & _ & _ & _ & E) [A B]. destruct (E p) as [Ed [Ec|Ec]]; split; try rewrite Ed; auto. congruence. Qed.
Lemma weaker_split c s s' E T : weaker s s' -> split_ok c s E T -> split_ok c s' E T.
Proof.
  intros W (A & B & D & F & G). split; [rewrite (weaker_slice s s'); auto|]. split; [|split; [|split; auto]].
  - eapply Forall_impl; [|exact B]. intros p. now apply weaker_valid.
  - eapply Forall_impl; [|exact D]. intros p. now apply weaker_dead.
  - eapply SS_impl; [|exact F]. intros x y _ _. destruct W as (_ & _ & _ & _ & W). now rewrite !(proj1 (W _)).
Qed.
Lemma weaker_tinv c s s' : weaker s s' -> tinv c s -> tinv c s'.
Proof.
  intros W ((S1 & S2) & E & T & H). split.
  - destruct W as (A & B & C1 & _). unfold shape, array. rewrite A, B, C1. split; auto.
  - exists E, T. eapply weaker_split; eauto.
Qed.
Lemma cancel_weaker label s : weaker s (cancel label s).
Proof.
  unfold cancel. generalize (slice s). intros l. 
  assert (G : forall s0, weaker s s0 -> weaker s (fold_left (fun s p => match p with
      | Some i => if String.eqb (tm_label (nth i (ts_objs s) no_timer)) label then cancel_at i s else s
      | None => s end) l s0)); [|apply G, weaker_refl].
  induction l as [|[i|] l IH]; simpl; intros s0 W; auto. apply IH. destruct (String.eqb _ _); auto.
  eapply weaker_trans; [exact W|apply cancel_at_weaker].
Qed.

(** ** The check loop *)

Section Check.
Variables (R : reaction) (grow : nat -> nat) (now clock : N) (s0 : tset).
Variables (E0 T0 : list (option nat)).
Hypothesis Hclock : clock <= now.
Hypothesis Hshape : shape s0.
Hypothesis Hsplit : split_ok clock s0 E0 T0.

Let L := E0 ++ T0.
Let n0 := List.length L.
Let a0 := ts_cur s0.

(** Timers created since the start of the check. *)
Definition fresh_id (p : option nat) : Prop := exists i, p = Some i /\ (List.length (ts_objs s0) <= i)%nat.

(** [V] are the timers the loop has seen so far. *)
Definition objs_inv (V : list (option nat)) (s : tset) : Prop :=
  (List.length (ts_objs s0) <= List.length (ts_objs s))%nat /\
  (forall p, valid s0 p -> dl s p = dl s0 p) /\
  (forall p, valid s0 p -> ~ In p V -> tm_cb (obj s p) = tm_cb (obj s0 p)) /\
  (forall p, In p V -> valid s0 p /\ dead s now p).

Definition arr_inv (i : nat) (V : list (option nat)) (s : tset) : Prop :=
  (a0 < List.length (ts_arrays s))%nat /\ (n0 <= List.length (array s a0))%nat /\
  (forall j, (j < i)%nat -> In (nth j (array s a0) None) V) /\
  forall j, (j < n0)%nat -> nth j (array s a0) None = nth j L None \/ In (nth j (array s a0) None) V.

Definition slice_inv (i : nat) (s : tset) : Prop :=
  shape s /\ (ts_cur s = a0 \/ (i < ts_len s)%nat) /\
  exists E T, split_ok now s E T /\ (i <= List.length E)%nat /\ Forall fresh_id T.

Definition loop_inv (i : nat) (V : list (option nat)) (x : logged) : Prop :=
  (i <= n0)%nat /\
  objs_inv V (fst x) /\ arr_inv i V (fst x) /\
  ((i = 0%nat /\ fst x = s0 /\ snd x = []) \/ ((1 <= i)%nat /\ slice_inv i (fst x))) /\
  exists sub, snd x = cbs sub /\ sublist sub (due now (filter is_armed (map (obj s0) (firstn i L)))).

Lemma nth_app_l {A} (l m : list A) i d : (i < List.length l)%nat -> nth i (l ++ m) d = nth i l d.
Proof. apply app_nth1. Qed.
Lemma firstn_S_nth {A} (l : list A) i d : (i < List.length l)%nat -> firstn (S i) l = firstn i l ++ [nth i l d].
Proof.
  revert l; induction i as [|i IH]; intros [|x l] H; cbn [List.length] in H; try lia; [reflexivity|].
  change (x :: firstn (S i) l = x :: (firstn i l ++ [nth i l d])). rewrite IH by lia. reflexivity.
Qed.
Lemma nth_firstn' {A} (l : list A) i n d : (i < n)%nat -> nth i (firstn n l) d = nth i l d.
Proof.
  revert l n; induction i as [|i IH]; intros [|x l] [|n] H; try lia; try reflexivity. simpl. apply IH. lia.
Qed.

(** What [reappend] does at step [i]. *)
Lemma reappend_spec i V s q : (i < n0)%nat -> q = nth i (array s a0) None -> arr_inv i V s -> valid s q ->
  ((i = 0%nat /\ s = s0) \/ ((1 <= i)%nat /\ slice_inv i s)) ->
  exists s', reappend grow i s = Ok s' /\ ts_objs s' = ts_objs s /\ arr_inv (S i) (q :: V) s' /\ shape s' /\
    (ts_cur s' = a0 \/ (S i < ts_len s')%nat) /\
    exists E T, slice s' = E ++ T /\ (S i <= List.length E)%nat /\
      Forall (fun p => valid s p /\ (p = q \/ dead s now p)) E /\
      Forall (valid s) T /\ Forall fresh_id T /\ StronglySorted (fun p q => dl s p <= dl s q) T /\ NoDup T.
Proof.
  intros Hi Hq (A1 & A2 & A3 & A4) Vq Hs.
  set (a := array s (ts_cur s)).
  assert (Hshp : shape s) by (destruct Hs as [[_ ->]|[_ [H _]]]; auto).
  assert (La : (i < List.length a)%nat).
  { destruct Hs as [[-> ->]|[_ ([_ S2] & [Ec|Hl] & _)]].
    - subst a. fold a0. lia.
    - subst a. rewrite Ec. lia.
    - subst a. lia. }
  assert (Enew : firstn i a ++ firstn (i + 1) a = firstn i a ++ firstn i a ++ [nth i a None]).
  { rewrite Nat.add_1_r. now rewrite (firstn_S_nth a i None La). }
  set (new := firstn i a ++ firstn i a ++ [nth i a None]) in *.
  assert (Ln : List.length new = (2 * i + 1)%nat).
  { subst new. rewrite !app_length, firstn_length. simpl. lia. }
  (* the slice seen as E ++ T *)
  assert (Hsl : exists E T, new = E ++ T /\ (S i <= List.length E)%nat /\
      Forall (fun p => valid s p /\ (p = q \/ dead s now p)) E /\
      Forall (valid s) T /\ Forall fresh_id T /\ StronglySorted (fun p q => dl s p <= dl s q) T /\ NoDup T).
  { destruct Hs as [[-> ->]|[H1 (_ & Hc & E & T & (Es & Ev & Ed & Et & En) & HE & Hf)]].
    - exists [q], []. subst new. simpl firstn. cbn [app]. subst a. fold a0. rewrite <- Hq.
      split; [reflexivity|]. split; [simpl; lia|]. repeat split; auto; constructor.
    - assert (Efi : firstn i a = firstn i E).
      { transitivity (firstn i (slice s)).
        - unfold slice. fold a. rewrite firstn_firstn. f_equal. 
          assert (List.length (slice s) = ts_len s) by now apply slice_len. rewrite Es, app_length in H. lia.
        - rewrite Es, firstn_app. replace (i - List.length E)%nat with 0%nat by lia. simpl. apply app_nil_r. }
      assert (Ls : List.length (slice s) = ts_len s) by now apply slice_len.
      assert (FE : Forall (fun p => valid s p /\ (p = q \/ dead s now p)) (firstn i E)).
      { apply Forall_app in Ev. destruct Ev as [Ev _]. rewrite Forall_forall in *. intros p Hp.
        assert (In p E) by (rewrite <- (firstn_skipn i E); apply in_or_app; auto). auto. }
      assert (LfE : List.length (firstn i E) = i) by (rewrite firstn_length; lia).
      destruct (Nat.ltb_spec i (ts_len s)) as [Hl|Hl].
      + assert (Ei : nth i a None = nth i (E ++ T) None).
        { rewrite <- Es. unfold slice. fold a. now rewrite nth_firstn'. }
        destruct (Nat.ltb_spec i (List.length E)) as [HiE|HiE].
        * exists new, []. rewrite app_nil_r. split; auto. split; [lia|]. split; [|repeat split; constructor].
          subst new. rewrite Efi, !Forall_app. split; auto. split; auto. constructor; auto.
          rewrite Ei, app_nth1 by auto. apply Forall_app in Ev. destruct Ev as [Ev _]. rewrite Forall_forall in *.
          assert (In (nth i E None) E) by now apply nth_In. auto.
        * exists (firstn i E ++ firstn i E), [nth i a None]. split; [subst new; now rewrite Efi, app_assoc|].
          split; [rewrite app_length; lia|]. split; [now apply Forall_app|].
          assert (Hin : In (nth i a None) T).
          { rewrite Ei, app_nth2 by lia. apply nth_In. rewrite Es, app_length in Ls. lia. }
          apply Forall_app in Ev. destruct Ev as [_ Ev]. rewrite Forall_forall in Ev, Hf.
          split; [constructor; auto|]. split; [constructor; auto|]. split; [constructor; constructor|].
          constructor; [simpl; tauto|constructor].
      + assert (Ec : ts_cur s = a0) by (destruct Hc; [auto|lia]).
        assert (Eq : nth i a None = q) by (subst a q; now rewrite Ec).
        exists new, []. rewrite app_nil_r. split; auto. split; [lia|]. split; [|repeat split; constructor].
        subst new. rewrite Efi, Eq, !Forall_app. split; auto. }
  unfold reappend. fold a. cbv zeta. rewrite Enew. fold new.
  destruct (Nat.ltb_spec (List.length a) (i + 1)) as [H|_]; [lia|].
  destruct (Nat.leb_spec (List.length new) (List.length a)) as [Hfit|Hfit].
  - set (w := new ++ skipn (List.length new) a). eexists. split; [reflexivity|]. split; [reflexivity|].
    assert (Lw : List.length w = List.length a) by (subst w; rewrite app_length, skipn_length; lia).
    destruct Hshp as [Hcur Hlen].
    set (s' := mkTs _ _ _ _).
    assert (Aw : array s' (ts_cur s) = w) by (unfold array; cbn [s' ts_arrays]; now rewrite set_nth_same).
    assert (Ao : forall b, b <> ts_cur s -> array s' b = array s b).
    { intros b Hb. unfold array; cbn [s' ts_arrays]. now rewrite set_nth_other by auto. }
    split; [|split; [|split]].
    + split; [cbn [s' ts_arrays]; now rewrite set_nth_length|].
      destruct (Nat.eq_dec a0 (ts_cur s)) as [Ea|Ea].
      * rewrite Ea, Aw. assert (Haa : array s a0 = a) by (subst a; now rewrite Ea). rewrite Haa in *.
        assert (Hle : forall m, (m <= i)%nat -> In (nth m a None) (q :: V)).
        { intros m Hm. destruct (Nat.eq_dec m i) as [->|Hne]; [left; auto|right; apply A3; lia]. }
        assert (Hnew : forall m, (m < List.length new)%nat -> In (nth m new None) (q :: V)).
        { intros m Hm. subst new.
          assert (Hf : List.length (firstn i a) = i) by (rewrite firstn_length; lia).
          destruct (Nat.ltb_spec m i) as [H1|H1]; [rewrite app_nth1, nth_firstn' by lia; apply Hle; lia|].
          rewrite app_nth2 by lia. rewrite Hf.
          destruct (Nat.ltb_spec (m - i) i) as [H2|H2]; [rewrite app_nth1, nth_firstn' by lia; apply Hle; lia|].
          rewrite app_nth2 by lia. rewrite Hf. replace (m - i - i)%nat with 0%nat by lia. simpl nth. apply Hle. lia. }
        split; [lia|]. split.
        -- intros j Hj. subst w. destruct (Nat.ltb_spec j (List.length new)) as [H1|H1]; [rewrite app_nth1 by auto; auto|lia].
        -- intros j Hj. subst w. destruct (Nat.ltb_spec j (List.length new)) as [H1|H1]; [right; rewrite app_nth1 by auto; auto|].
           rewrite app_nth2 by lia.
           assert (Hsk : nth (j - List.length new) (skipn (List.length new) a) None = nth j a None).
           { rewrite <- (firstn_skipn (List.length new) a) at 2. rewrite app_nth2; rewrite firstn_length; [|lia]. f_equal. lia. }
           rewrite Hsk. destruct (A4 j Hj) as [H|H]; [left; auto|right; right; auto].
      * rewrite Ao by auto. split; auto. split.
        -- intros j Hj. destruct (Nat.eq_dec j i) as [->|]; [left; auto|right; apply A3; lia].
        -- intros j Hj. destruct (A4 j Hj); auto. right; right; auto.
    + split; cbn [s' ts_cur ts_len ts_arrays]; [now rewrite set_nth_length|]. first [rewrite Aw | unfold s' in Aw; rewrite Aw]. lia.
    + cbn [s' ts_cur ts_len]. destruct Hs as [[-> ->]|[H1 (_ & [Hc|Hc] & _)]]; auto. right. lia.
    + destruct Hsl as (E & T & H1 & H2). exists E, T. split; auto. rewrite <- H1.
      unfold slice. cbn [s' ts_cur ts_len]. first [rewrite Aw | unfold s' in Aw; rewrite Aw]. subst w. rewrite firstn_app, Nat.sub_diag, firstn_all. simpl. apply app_nil_r.
  - set (w := new ++ repeat None (grow (List.length new))). eexists. split; [reflexivity|]. split; [reflexivity|].
    set (s' := mkTs _ _ _ _).
    assert (Hi1 : (1 <= i)%nat) by (destruct i; [rewrite Ln in Hfit; simpl in Hfit; lia|lia]).
    assert (Aw : array s' (List.length (ts_arrays s)) = w).
    { unfold array; cbn [s' ts_arrays]. rewrite app_nth2, Nat.sub_diag by lia. reflexivity. }
    assert (Ao : array s' a0 = array s a0).
    { unfold array; cbn [s' ts_arrays]. now rewrite app_nth1 by auto. }
    split; [|split; [|split]].
    + split; [cbn [s' ts_arrays]; rewrite app_length; simpl; lia|]. rewrite Ao. split; auto. split.
      -- intros j Hj. destruct (Nat.eq_dec j i) as [->|]; [left; auto|right; apply A3; lia].
      -- intros j Hj. destruct (A4 j Hj); auto. right; right; auto.
    + split; cbn [s' ts_cur ts_len ts_arrays]; [rewrite app_length; simpl; lia|]. first [rewrite Aw | unfold s' in Aw; rewrite Aw]. subst w. rewrite app_length. lia.
    + right. cbn [s' ts_len]. lia.
    + destruct Hsl as (E & T & H1 & H2). exists E, T. split; auto. rewrite <- H1.
      unfold slice. cbn [s' ts_cur ts_len]. first [rewrite Aw | unfold s' in Aw; rewrite Aw]. subst w. rewrite firstn_app, Nat.sub_diag, firstn_all. simpl. apply app_nil_r.
Qed.

Lemma sublist_app_r {A} (l m k : list A) : sublist l m -> sublist l (m ++ k).
Proof. induction 1; simpl; constructor; auto. Qed.
Lemma sublist_refl {A} (l : list A) : sublist l l.
Proof. induction l; constructor; auto. Qed.
Lemma sublist_app {A} (l m k k' : list A) : sublist l m -> sublist k k' -> sublist (l ++ k) (m ++ k').
Proof.
  induction 1 as [m|x l m H IH|x l m H IH]; intros Hk; simpl.
  - induction m; simpl; auto. constructor; auto.
  - constructor; auto.
  - constructor; auto.
Qed.
Lemma cbs_app a b : cbs (a ++ b) = cbs a ++ cbs b.
Proof. unfold cbs. now rewrite map_app, concat_app. Qed.
Lemma due_app c a b : due c (a ++ b) = due c a ++ due c b.
Proof. apply filter_app. Qed.

(** Starting timers from a callback keeps the parts of the invariant. *)
Lemma start_all_inv l : forall i V s E T, (1 <= i)%nat -> objs_inv V s -> arr_inv i V s -> shape s -> (ts_cur s = a0 \/ (i < ts_len s)%nat) ->
  split_ok now s E T -> (i <= List.length E)%nat -> Forall fresh_id T ->
  objs_inv V (start_all now l s) /\ arr_inv i V (start_all now l s) /\ slice_inv i (start_all now l s).
Proof.
  induction l as [|[[lab c] d] l IH]; intros i V s E T Hi Ho Ha Sh Hc Hs HE Hf; simpl.
  - split; auto. split; auto. split; auto. split; auto. exists E, T. auto.
  - destruct (start_split now lab c d s E T Sh Hs) as (T' & Hs' & HT' & Sh' & Eo & Ecur & (arr & Ea) & El).
    assert (Hlen : List.length (slice s) = ts_len s) by now apply slice_len.
    destruct Ho as (O1 & O2 & O3 & O4).
    assert (Vs : forall p, valid s0 p -> valid s p).
    { intros p (k & -> & Hk). exists k. split; auto. lia. }
    apply (IH i V _ E T'); auto.
    + repeat split.
      * rewrite Eo, app_length. lia.
      * intros p Hp. unfold dl. rewrite (obj_ext s _ p _ Eo) by auto. now apply O2.
      * intros p Hp Hn. rewrite (obj_ext s _ p _ Eo) by auto. now apply O3.
      * now apply O4.
      * rewrite (obj_ext s _ p _ Eo) by (apply Vs; now apply O4). now apply O4.
      * unfold dl. rewrite (obj_ext s _ p _ Eo) by (apply Vs; now apply O4). now apply O4.
    + destruct Ha as (A1 & A2 & A3 & A4).
      assert (Eaa : array (start now lab c d s) a0 = array s a0) by (unfold array; rewrite Ea, app_nth1; auto).
      split; [rewrite Ea, app_length; lia|]. rewrite Eaa. auto.
    + right. destruct Hs as (Es & _). rewrite Es, app_length in Hlen. lia.
    + rewrite Forall_forall in *. intros p Hp. apply HT' in Hp. destruct Hp as [Hp| ->]; auto.
      exists (List.length (ts_objs s)). auto.
Qed.

Lemma step_inv i V x q : loop_inv i V x -> (i < n0)%nat -> q = nth i (array (fst x) a0) None -> dl (fst x) q < now ->
  exists id s, q = Some id /\ reappend grow i (fst x) = Ok s /\
    match tm_cb (nth id (ts_objs (fst x)) no_timer) with
    | None => loop_inv (S i) (q :: V) (s, snd x)
    | Some c => loop_inv (S i) (q :: V) (start_all now (starts R c) (disarm id s), snd x ++ [c])
    end.
Proof.
  intros (Hin & Ho & Ha & Hsl & sub & Elog & Hsub) Hi Hq Hdl.
  destruct Hsplit as (L1 & L2 & L3 & L4 & L5). fold L in L1, L2.
  assert (Vq0 : valid s0 q).
  { destruct Ha as (_ & _ & _ & A4). destruct (A4 i Hi) as [H|H]; rewrite <- Hq in H.
    - rewrite H. rewrite Forall_forall in L2. apply L2. now apply nth_In.
    - now apply Ho. }
  assert (Vs : forall p, valid s0 p -> valid (fst x) p).
  { intros p (k & -> & Hk). exists k. split; auto. destruct Ho. lia. }
  assert (Hs' : (i = 0%nat /\ fst x = s0) \/ ((1 <= i)%nat /\ slice_inv i (fst x))) by tauto.
  destruct (reappend_spec i V (fst x) q Hi Hq Ha (Vs q Vq0) Hs') as (s' & Er & Eo & Ha' & Sh' & Hc' & E & T & Es & HE & FE & FT & Ff & SS & ND).
  destruct Vq0 as (id & -> & Hid). exists id, s'. split; auto. split; auto.
  assert (Hobj : forall p, obj s' p = obj (fst x) p) by (intros p; unfold obj; now rewrite Eo).
  assert (Hval : forall p, valid (fst x) p -> valid s' p) by (intros p (k & -> & Hk); exists k; now rewrite Eo).
  assert (Hfn : firstn (S i) L = firstn i L ++ [nth i L None]) by now apply firstn_S_nth.
  assert (Hext : forall l, sublist sub (due now (filter is_armed (map (obj s0) (firstn i L)))) ->
     sublist l (due now (filter is_armed [obj s0 (nth i L None)])) -> sublist (sub ++ l) (due now (filter is_armed (map (obj s0) (firstn (S i) L))))).
  { intros l Hl1 Hl2. rewrite Hfn, map_app, filter_app, due_app. now apply sublist_app. }
  change (nth id (ts_objs (fst x)) no_timer) with (obj (fst x) (Some id)).
  destruct Ho as (O1 & O2 & O3 & O4).
  destruct (tm_cb (obj (fst x) (Some id))) as [c|] eqn:Ecb.
  - (* fires *)
    assert (NV : ~ In (Some id) V) by (intros HV; destruct (O4 _ HV) as [_ [H _]]; congruence).
    assert (EL : Some id = nth i L None).
    { destruct Ha as (_ & _ & _ & A4). destruct (A4 i Hi) as [H|H]; rewrite <- Hq in H; [auto|tauto]. }
    pose proof (disarm_weaker id s') as W.
    assert (Hdead : tm_cb (obj (disarm id s') (Some id)) = None).
    { unfold obj, disarm. cbn [ts_objs]. rewrite set_nth_same; auto. rewrite Eo. lia. }
    assert (Hoth : forall p, p <> Some id -> obj (disarm id s') p = obj s' p).
    { intros [k|] Hp; auto. unfold obj, disarm. cbn [ts_objs]. rewrite set_nth_other; auto. }
    assert (Wd : forall p, dl (disarm id s') p = dl s' p) by (intros p; apply W).
    assert (Ho' : objs_inv (Some id :: V) (disarm id s')).
    { repeat split.
      - unfold disarm; cbn [ts_objs]. rewrite set_nth_length, Eo. auto.
      - intros p Hp. rewrite Wd. unfold dl. rewrite Hobj. now apply O2.
      - intros p Hp Hn. rewrite Hoth, Hobj by (intros ->; apply Hn; now left). apply O3; auto. intros ?; apply Hn; now right.
      - destruct H as [<-|H]; [now exists id|now apply O4].
      - destruct H as [<-|H]; [auto|]. rewrite Hoth, Hobj by congruence. now apply O4.
      - destruct H as [<-|H]; rewrite Wd; unfold dl; rewrite Hobj; [exact Hdl|]. now apply O4. }
    assert (Ha2 : arr_inv (S i) (Some id :: V) (disarm id s')) by exact Ha'.
    assert (Hsp : split_ok now (disarm id s') E T).
    { split; [now rewrite (weaker_slice _ _ W)|]. split; [|split; [|split; auto]].
      - apply Forall_app. split; [eapply Forall_impl; [|exact FE]|eapply Forall_impl; [|exact FT]]; intros p Hp; apply (weaker_valid _ _ _ W), Hval; first [exact Hp | apply Hp].
      - eapply Forall_impl; [|exact FE]. intros p [Hp [->|Hd]]; [split; auto; rewrite Wd; unfold dl; rewrite Hobj; exact Hdl|].
        apply (weaker_dead _ _ _ _ W). destruct Hd. split; [now rewrite Hobj|unfold dl; now rewrite Hobj].
      - eapply SS_impl; [|exact SS]. intros p r _ _. rewrite !Wd. unfold dl. now rewrite !Hobj. }
    destruct (start_all_inv (starts R c) (S i) (Some id :: V) (disarm id s') E T) as (I1 & I2 & I3); auto; [lia|].
    split; [lia|]. split; [exact I1|]. split; [exact I2|]. split; [right; split; [lia|exact I3]|].
    exists (sub ++ [obj s0 (Some id)]). cbn [snd]. split.
    + rewrite cbs_app, Elog. f_equal. unfold cbs. cbn [map concat]. rewrite <- (O3 (Some id)); [|now exists id|auto]. now rewrite Ecb.
    + apply Hext; auto. rewrite <- EL. unfold due. cbn [filter]. unfold is_armed.
      rewrite <- (O3 (Some id)); [|now exists id|auto]. rewrite Ecb. cbn [filter].
      assert (Hd0 : dl s0 (Some id) < now) by (rewrite <- O2; [exact Hdl|now exists id]).
      unfold dl in Hd0. apply N.ltb_lt in Hd0. rewrite Hd0. apply sublist_refl.
  - (* already disarmed *)
    assert (Ho' : objs_inv (Some id :: V) s').
    { repeat split.
      - rewrite Eo. auto.
      - intros p Hp. unfold dl. rewrite Hobj. now apply O2.
      - intros p Hp Hn. rewrite Hobj. apply O3; auto. intros ?; apply Hn; now right.
      - destruct H as [<-|H]; [now exists id|now apply O4].
      - destruct H as [<-|H]; rewrite Hobj; [auto|now apply O4].
      - destruct H as [<-|H]; unfold dl; rewrite Hobj; [exact Hdl|now apply O4]. }
    split; [lia|]. split; [exact Ho'|]. split; [exact Ha'|]. split.
    + right. split; [lia|]. split; [exact Sh'|]. split; [exact Hc'|]. exists E, T. split; [|auto].
      split; [exact Es|]. split; [|split; [|split; auto]].
      * apply Forall_app. split; [eapply Forall_impl; [|exact FE]|eapply Forall_impl; [|exact FT]]; intros p Hp; apply Hval; first [exact Hp | apply Hp].
      * eapply Forall_impl; [|exact FE]. intros p [Hp [->|Hd]]; [split; [now rewrite Hobj|unfold dl; rewrite Hobj; exact Hdl]|].
        destruct Hd. split; [now rewrite Hobj|unfold dl; now rewrite Hobj].
      * eapply SS_impl; [|exact SS]. intros p r _ _. unfold dl. now rewrite !Hobj.
    + exists sub. split; [exact Elog|]. rewrite <- (app_nil_r sub). apply Hext; auto. constructor.
Qed.

Lemma loop_spec todo : forall i V x, loop_inv i V x -> (i + todo = n0)%nat ->
  exists i' V' r x', check_loop fst (fun s (x : logged) => (s, snd x)) (run_cb R now) grow now a0 todo i x = (x', r) /\
    loop_inv i' V' x' /\ (i <= i')%nat /\ (r = Ok tt \/ exists c e, r = Err e /\ fails R c = Some e) /\
    (i' = i -> x' = x) /\
    (r = Ok tt -> i' = n0 \/ (i' < n0)%nat /\ now <= dl (fst x') (nth i' (array (fst x') a0) None)).
Proof.
  induction todo as [|todo IH]; intros i V x H Hn.
  - exists i, V, (Ok tt), x. simpl. split; auto. split; auto. split; auto. split; auto. split; auto. left; lia.
  - cbn [check_loop].
    assert (Hi : (i < n0)%nat) by lia.
    assert (Vq : valid s0 (nth i (array (fst x) a0) None)).
    { destruct Hsplit as (L1 & L2 & _). destruct H as (_ & Ho & (_ & _ & _ & A4) & _). destruct (A4 i Hi) as [H|H]; [|now apply Ho].
      rewrite H. rewrite Forall_forall in L2. apply L2. now apply nth_In. }
    destruct Vq as (id & Eq & Hid). rewrite Eq. 
    destruct (N.ltb_spec (tm_deadline (nth id (ts_objs (fst x)) no_timer)) now) as [Hd|Hd].
    + destruct (step_inv i V x (Some id) H Hi (eq_sym Eq) Hd) as (id' & s & [= <-] & Er & Hstep).
      rewrite Er. destruct (tm_cb _) as [c|].
      * unfold run_cb at 1. cbn [fst snd]. destruct (fails R c) as [e|] eqn:Ef.
        -- exists (S i), (Some id :: V), (Err e), (start_all now (starts R c) (disarm id s), snd x ++ [c]).
           split; auto. split; auto. split; [lia|]. split; [eauto|]. split; [lia|discriminate].
        -- destruct (IH (S i) _ _ Hstep) as (i' & V' & r & x' & A & B & C1 & D & F & G); [lia|].
           exists i', V', r, x'. split; [exact A|]. split; auto. split; [lia|]. split; auto. split; [lia|auto].
      * destruct (IH (S i) _ _ Hstep) as (i' & V' & r & x' & A & B & C1 & D & F & G); [lia|].
        exists i', V', r, x'. split; [exact A|]. split; auto. split; [lia|]. split; auto. split; [lia|auto].
    + exists i, V, (Ok tt), x. split; auto. split; auto. split; auto. split; auto. split; auto. right. split; auto.
      rewrite Eq. exact Hd.
Qed.

Lemma loop_start : loop_inv 0 [] (s0, []).
Proof.
  split; [lia|]. destruct Hsplit as (L1 & L2 & _). split; [|split; [|split]].
  - repeat split; auto; simpl in *; tauto.
  - pose proof Hshape as [S1 S2]. assert (EL : L = slice s0) by (symmetry; exact L1).
    assert (En : n0 = ts_len s0) by (unfold n0; rewrite EL; now apply slice_len).
    split; auto. split; [rewrite En; auto|]. split; [intros; lia|].
    intros j Hj. left. cbn [fst]. rewrite EL. unfold slice. rewrite nth_firstn' by lia. reflexivity.
  - left. auto.
  - exists []. split; auto. constructor.
Qed.

Lemma do_check_spec :
  exists i V r x', do_check R grow now s0 = (x', r) /\ loop_inv i V x' /\
    (r = Ok tt \/ exists c e, r = Err e /\ fails R c = Some e) /\ (i = 0%nat -> x' = (s0, [])) /\
    (r = Ok tt -> i = n0 \/ (i < n0)%nat /\ now <= dl (fst x') (nth i (array (fst x') a0) None)).
Proof.
  destruct (loop_spec n0 0 [] (s0, [])) as (i & V & r & x' & A & B & _ & D & F & G); [apply loop_start|lia|].
  exists i, V, r, x'. split; [|split; [exact B|split; [exact D|split; [exact F|exact G]]]].
  unfold do_check, check. cbn [fst]. destruct Hsplit as (L1 & _). rewrite L1. exact A.
Qed.

Lemma check_tinv : tinv now (fst (fst (do_check R grow now s0))).
Proof.
  destruct do_check_spec as (i & V & r & x' & E & (_ & _ & _ & Hs & _) & _). rewrite E. cbn [fst].
  destruct Hs as [(-> & -> & _)|(_ & Sh & _ & E' & T' & Hs & _)].
  - apply tinv_mono with clock; auto. split; auto. now exists E0, T0.
  - split; auto. now exists E', T'.
Qed.

End Check.

Lemma reachable_tinv clock s : reachable clock s -> tinv clock s.
Proof.
  induction 1 as [clock|clock now label c d s H IH Hc|clock label s H IH|clock now R grow s H IH Hc].
  - split; [split; simpl; lia|]. exists [], []. repeat split; constructor.
  - apply start_tinv. now apply tinv_mono with clock.
  - eapply weaker_tinv; [apply cancel_weaker|auto].
  - destruct IH as (Sh & E & T & Hs). eapply check_tinv; eauto.
Qed.

(** ** Consequences *)

Lemma filter_false {A} (f : A -> bool) l : Forall (fun x => f x = false) l -> filter f l = [].
Proof. induction 1 as [|x l H _ IH]; simpl; auto. now rewrite H. Qed.
Lemma SS_filter {A} (R : A -> A -> Prop) f l : StronglySorted R l -> StronglySorted R (filter f l).
Proof.
  induction 1 as [|x l H IH HF]; simpl; [constructor|]. destruct (f x); auto. constructor; auto.
  rewrite Forall_forall in *. intros y Hy. apply filter_In in Hy. apply HF. tauto.
Qed.
Lemma SS_map {A B} (f : A -> B) (R : B -> B -> Prop) l : StronglySorted (fun a b => R (f a) (f b)) l -> StronglySorted R (map f l).
Proof.
  induction 1 as [|x l H IH HF]; simpl; constructor; auto. apply Forall_map. exact HF.
Qed.

Lemma armed_sorted clock s : reachable clock s -> by_deadline (armed s).
Proof.
  intros H. apply reachable_tinv in H. destruct H as (_ & E & T & A & _ & D & F & _).
  unfold armed, entries. rewrite A, map_app, filter_app.
  rewrite (filter_false is_armed (map (obj s) E)).
  - cbn [app]. apply SS_filter. apply SS_map. exact F.
  - apply Forall_map. eapply Forall_impl; [|exact D]. intros p [Hp _]. unfold is_armed. now rewrite Hp.
Qed.

Lemma start_armed clock now label c d s : reachable clock s ->
  exists a b, armed s = a ++ b /\ armed (start now label c d s) = a ++ [mkT label (Some c) (now + d)] ++ b.
Proof.
  intros H. apply reachable_tinv in H. destruct H as (Sh & E & T & A & V & _).
  destruct (start_slice now label c d s Sh) as [Es _].
  set (k := insert_pos _ _ _) in Es.
  exists (filter is_armed (map (obj s) (firstn k (slice s)))), (filter is_armed (map (obj s) (skipn k (slice s)))).
  split; [unfold armed, entries; now rewrite <- filter_app, <- map_app, firstn_skipn|].
  unfold armed, entries. rewrite Es, !map_app, !filter_app. rewrite <- A in V.
  assert (Hm : forall l, incl l (slice s) -> map (obj (start now label c d s)) l = map (obj s) l).
  { intros l Hl. apply map_ext_in. intros p Hp. eapply obj_ext; [reflexivity|]. rewrite Forall_forall in V. auto. }
  rewrite (Hm (firstn k (slice s))), (Hm (skipn k (slice s))) by (intros p Hp; rewrite <- (firstn_skipn k (slice s)); apply in_or_app; auto).
  assert (En : obj (start now label c d s) (Some (List.length (ts_objs s))) = mkT label (Some c) (now + d)).
  { unfold obj, start. cbn [ts_objs]. rewrite app_nth2, Nat.sub_diag by lia. reflexivity. }
  unfold map at 2. rewrite En. reflexivity.
Qed.

Lemma sublist_due_mono now (l m : list timer) : sublist l m -> sublist (due now l) (due now m).
Proof. induction 1; simpl; [constructor| |]; destruct (_ <? _); auto; constructor; auto. Qed.
Lemma sublist_trans {A} (l m k : list A) : sublist l m -> sublist m k -> sublist l k.
Proof.
  intros H1 H2. revert l H1. induction H2 as [m|x m k H IH|x m k H IH]; intros l H1.
  - inversion H1; subst. constructor.
  - inversion H1; subst; [constructor|constructor; auto|constructor; auto].
  - constructor. auto.
Qed.

Lemma check_safe clock now R grow s : reachable clock s -> clock <= now ->
  exists s' log r sub, do_check R grow now s = ((s', log), r) /\ log = cbs sub /\ sublist sub (due now (armed s)) /\
    (r = Ok tt \/ exists c e, r = Err e /\ fails R c = Some e) /\
    ((forall t, In t (entries s) -> now <= tm_deadline t) -> s' = s).
Proof.
  intros H Hc. apply reachable_tinv in H. destruct H as (Sh & E & T & Hs).
  pose proof Hs as (L1 & L2 & _). rewrite <- L1 in L2.
  destruct (do_check_spec R grow now clock s E T Hc Sh Hs) as (i & V & r & [s' log] & Ed & (_ & _ & _ & _ & sub & Hl & Hsub) & Hr & _).
  exists s', log, r, sub. split; [exact Ed|]. split; [exact Hl|]. split; [|split; [exact Hr|]].
  - eapply sublist_trans; [exact Hsub|]. unfold armed, entries. rewrite L1. rewrite <- (firstn_skipn i (E ++ T)) at 2.
    rewrite map_app, filter_app, due_app. apply sublist_app_r, sublist_refl.
  - intros Hn. unfold do_check, check in Ed. cbn [fst] in Ed.
    destruct (slice s) as [|p l] eqn:El; [cbn [List.length check_loop] in Ed; congruence|].
    cbn [List.length check_loop fst] in Ed.
    assert (E0 : nth 0 (array s (ts_cur s)) None = p).
    { unfold slice in El. destruct (ts_len s), (array s (ts_cur s)); simpl in *; congruence. }
    rewrite E0 in Ed. inversion L2 as [|? ? (id & Ep & Hid) _]; subst p. rewrite Ep in Ed.
    assert (Hd : now <= tm_deadline (nth id (ts_objs s) no_timer)).
    { apply Hn. unfold entries. rewrite El. left. now rewrite Ep. }
    apply N.ltb_ge in Hd. rewrite Hd in Ed. congruence.
Qed.

(** Two entries or fewer: everything due fires. *)
Lemma start_all_arrays now l : forall s, (ts_cur s < List.length (ts_arrays s))%nat ->
  exists more mo, ts_arrays (start_all now l s) = ts_arrays s ++ more /\ ts_objs (start_all now l s) = ts_objs s ++ mo.
Proof.
  induction l as [|[[lab c] d] l IH]; intros s H; simpl; [exists [], []; now rewrite !app_nil_r|].
  destruct (IH (start now lab c d s)) as (m & mo & E1 & E2).
  { unfold start; cbn [ts_cur ts_arrays]. rewrite app_length. simpl. lia. }
  rewrite E1, E2. unfold start. cbn [ts_arrays ts_objs]. rewrite <- !app_assoc. eauto.
Qed.
Lemma set_nth_id {A} n (l : list A) d : set_nth n (nth n l d) l = l.
Proof.
  revert n; induction l as [|x l IH]; intros [|n]; simpl; auto. now rewrite IH.
Qed.
Lemma reappend_0 grow (s : tset) a l : array s (ts_cur s) = a :: l -> reappend grow 0 s = Ok (mkTs (ts_objs s) (ts_arrays s) (ts_cur s) 1).
Proof.
  intros H. unfold reappend. rewrite H. cbn [List.length Nat.add firstn app Nat.ltb Nat.leb skipn]. 
  rewrite <- H. unfold array. now rewrite set_nth_id.
Qed.

Lemma small_fires clock now R grow s s' log : reachable clock s -> clock <= now -> (List.length (entries s) <= 2)%nat ->
  do_check R grow now s = ((s', log), Ok tt) -> log = cbs (due now (armed s)).
Proof.
  intros H Hc Hn Ed. apply reachable_tinv in H. destruct H as ((Sh1 & Sh2) & E & T & L1 & L2 & L3 & L4 & L5).
  rewrite <- L1 in L2.
  assert (Hlater : forall p q, slice s = [p; q] -> p <> q \/ tm_cb (obj s p) = None).
  { intros p q El. rewrite L1 in El. destruct E as [|e E]; cbn [app] in El.
    - left. rewrite El in L5. inversion L5; subst. simpl in *. intuition.
    - right. injection El as -> _. inversion L3; subst. now destruct H1. }
  assert (Hsort : forall p q, slice s = [p; q] -> now <= dl s p -> now <= dl s q).
  { intros p q El Hp. rewrite L1 in El. destruct E as [|e E]; cbn [app] in El.
    - rewrite El in L4. inversion L4; subst. inversion H2; subst. lia.
    - injection El as -> _. inversion L3; subst. destruct H1. lia. }
  unfold armed, entries in *. rewrite map_length in Hn.
  unfold do_check, check in Ed. cbn [fst] in Ed.
  destruct (slice s) as [|p l] eqn:El; [cbn [List.length check_loop] in Ed; injection Ed as _ <-; reflexivity|].
  assert (Harr : exists al, array s (ts_cur s) = p :: al /\ forall q l', l = q :: l' -> exists al', al = q :: al').
  { unfold slice in El. destruct (ts_len s) as [|n], (array s (ts_cur s)) as [|p' al]; cbn [firstn] in El; try discriminate.
    injection El as -> El. exists al. split; auto. intros q l' ->. destruct n, al; cbn [firstn] in El; try discriminate. injection El as -> _. eauto. }
  destruct Harr as (al & Ea & Hal).
  inversion L2 as [|? ? (id & Ep & Hid) L2']; subst p.
  destruct l as [|q [|? ?]]; [| |cbn [List.length] in Hn; lia].
  - (* one entry *)
    cbn [List.length check_loop fst] in Ed. rewrite Ea in Ed. cbn [nth] in Ed. subst.
    cbn [map filter]. unfold is_armed, obj. 
    destruct (N.ltb_spec (tm_deadline (nth id (ts_objs s) no_timer)) now) as [Hd|Hd].
    + rewrite (reappend_0 grow s _ al Ea) in Ed. destruct (tm_cb (nth id (ts_objs s) no_timer)) as [c|] eqn:Ecb.
      * unfold run_cb in Ed. cbn [fst snd] in Ed. destruct (fails R c); [discriminate|]. injection Ed as _ <-.
        cbn [app]. unfold due. cbn [filter]. apply N.ltb_lt in Hd. rewrite Hd. unfold cbs. cbn [map concat]. now rewrite Ecb.
      * cbn [snd] in Ed. injection Ed as _ <-. reflexivity.
    + injection Ed as _ <-. apply N.ltb_ge in Hd. destruct (tm_cb _); unfold due; cbn [filter]; rewrite ?Hd; reflexivity.
  - destruct (Hal q [] eq_refl) as (al' & ->).
    inversion L2' as [|? ? (id2 & Eq & Hid2) _]; subst.
    cbn [List.length] in Ed. change (check_loop ?a ?b ?c ?d ?e ?f 2 ?h ?x) with (check_loop a b c d e f (S 1) h x) in Ed.
    remember 1%nat as one. cbn [check_loop fst] in Ed. subst one. rewrite Ea in Ed. cbn [nth] in Ed.
    specialize (Hsort _ _ eq_refl). unfold dl, obj in Hsort.
    specialize (Hlater _ _ eq_refl). unfold obj in Hlater.
    cbn [map filter]. unfold is_armed, obj.
    destruct (N.ltb_spec (tm_deadline (nth id (ts_objs s) no_timer)) now) as [Hd|Hd].
    + rewrite (reappend_0 grow s _ _ Ea) in Ed.
      assert (Hstep2 : forall (x : logged) lg, (ts_cur s < List.length (ts_arrays (fst x)))%nat ->
         array (fst x) (ts_cur s) = Some id :: Some id2 :: al' ->
         nth id2 (ts_objs (fst x)) no_timer = lg ->
         forall s' log, check_loop fst (fun s (x : logged) => (s, snd x)) (run_cb R now) grow now (ts_cur s) 1 1 x = ((s', log), Ok tt) ->
         log = snd x ++ (if tm_deadline lg <? now then cbs [lg] else [])).
      { intros x lg Hx1 Hx2 Hx3 s1 log1 He. cbn [check_loop] in He. rewrite Hx2 in He. cbn [nth] in He. rewrite Hx3 in He.
        destruct (tm_deadline lg <? now).
        - destruct (reappend grow 1 (fst x)) as [sx| | |]; try discriminate.
          destruct (tm_cb lg) as [c|] eqn:Ec.
          + unfold run_cb in He. cbn [fst snd] in He. destruct (fails R c); [discriminate|]. injection He as _ <-. unfold cbs. cbn [map concat]. rewrite Ec. reflexivity.
          + injection He as _ <-. unfold cbs. cbn [map concat]. rewrite Ec. now rewrite app_nil_r.
        - injection He as ->. cbn [snd]. now rewrite app_nil_r. }
      destruct (tm_cb (nth id (ts_objs s) no_timer)) as [c|] eqn:Ecb.
      * unfold run_cb at 1 in Ed. cbn [fst snd] in Ed. destruct (fails R c); [discriminate|].
        assert (Hne : id <> id2) by (destruct Hlater; congruence).
        destruct (start_all_arrays now (starts R c) (disarm id (mkTs (ts_objs s) (ts_arrays s) (ts_cur s) 1)) Sh1) as (mo & mj & Em & Ej).
        eapply Hstep2 in Ed; [..|reflexivity].
        -- subst log. cbn [snd fst]. rewrite Ej. rewrite app_nth1 by (unfold disarm; cbn [ts_objs]; rewrite set_nth_length; auto).
           unfold disarm. cbn [ts_objs]. rewrite set_nth_other by auto.
           unfold due, cbs. apply N.ltb_lt in Hd.
           destruct (tm_deadline (nth id2 (ts_objs s) no_timer) <? now) eqn:E3, (tm_cb (nth id2 (ts_objs s) no_timer)) eqn:E2;
             cbn [filter]; rewrite ?Hd, ?E3; cbn [map concat]; rewrite ?Ecb, ?E2; reflexivity.
        -- cbn [fst]. rewrite Em, app_length. unfold disarm. cbn [ts_arrays]. lia.
        -- cbn [fst]. unfold array. rewrite Em. unfold disarm. cbn [ts_arrays]. rewrite app_nth1 by auto. exact Ea.
      * eapply Hstep2 in Ed; [..|reflexivity].
        -- subst log. cbn [snd fst ts_objs]. unfold due, cbs. destruct (tm_cb (nth id2 (ts_objs s) no_timer)) eqn:E2; cbn [filter]; destruct (_ <? now); cbn [map concat]; rewrite ?E2; reflexivity.
        -- exact Sh1.
        -- exact Ea.
    + injection Ed as _ <-. specialize (Hsort Hd). apply N.ltb_ge in Hd, Hsort.
      destruct (tm_cb (nth id _ _)), (tm_cb (nth id2 _ _)); unfold due; cbn [filter]; rewrite ?Hd, ?Hsort; reflexivity.
Qed.

(** Every callback that runs was started, and no more often than it was started. *)
Definition owed (s : tset) : list C := cbs (ts_objs s).
Lemma cbs_set_nth_none t l : forall i, (forall u, tm_cb (t u) = None) ->
  exists lost, Permutation (cbs l) (cbs (set_nth i (t (nth i l no_timer)) l) ++ lost) /\
    (forall c, tm_cb (nth i l no_timer) = Some c -> lost = [c]).
Proof.
  induction l as [|x l IH]; intros i Ht.
  - exists []. split; [destruct i; simpl; auto|]. destruct i; simpl; discriminate.
  - destruct i as [|i]; simpl.
    + unfold cbs. cbn [map concat]. rewrite Ht. exists (match tm_cb x with Some c => [c] | None => [] end). split.
      * apply Permutation_app_comm.
      * intros c ->. reflexivity.
    + destruct (IH i Ht) as (lost & H1 & H2). exists lost. split; auto. unfold cbs in *. cbn [map concat]. rewrite <- app_assoc. now apply Permutation_app_head.
Qed.
Lemma owed_start now label c d s : owed (start now label c d s) = owed s ++ [c].
Proof. unfold owed, start. cbn [ts_objs]. rewrite cbs_app. reflexivity. Qed.
Lemma owed_start_all now l : forall s, owed (start_all now l s) = owed s ++ map (fun p => snd (fst p)) l.
Proof.
  induction l as [|[[lab c] d] l IH]; intros s; simpl; [now rewrite app_nil_r|].
  rewrite IH, owed_start, <- app_assoc. reflexivity.
Qed.
Lemma owed_cancel_at i s : exists lost, Permutation (owed s) (owed (cancel_at i s) ++ lost).
Proof.
  destruct (cbs_set_nth_none (fun t => mkT "" None (tm_deadline t)) (ts_objs s) i) as (lost & H & _); auto. exists lost. exact H.
Qed.
Lemma owed_cancel label s : exists lost, Permutation (owed s) (owed (cancel label s) ++ lost).
Proof.
  unfold cancel. generalize (slice s). intros l. 
  assert (G : forall s0, (exists lost, Permutation (owed s) (owed s0 ++ lost)) -> exists lost, Permutation (owed s) (owed (fold_left (fun s p => match p with
      | Some i => if String.eqb (tm_label (nth i (ts_objs s) no_timer)) label then cancel_at i s else s
      | None => s end) l s0) ++ lost)); [|apply G; exists []; now rewrite app_nil_r].
  induction l as [|[i|] l IH]; simpl; intros s0 W; auto. apply IH. destruct (String.eqb _ _); auto.
  destruct W as (lost & W), (owed_cancel_at i s0) as (lost' & W'). exists (lost' ++ lost).
  rewrite W, W'. now rewrite app_assoc.
Qed.
Lemma reappend_objs grow i (s s' : tset) : reappend grow i s = Ok s' -> ts_objs s' = ts_objs s.
Proof.
  unfold reappend. destruct (_ <? _)%nat; [discriminate|]. cbv zeta. destruct (_ <=? _)%nat; intros H; apply Ok_inj in H; subst; reflexivity.
Qed.
Lemma loop_owed R grow now a0 todo : forall i (x x' : logged) r, 
  check_loop fst (fun s (x : logged) => (s, snd x)) (run_cb R now) grow now a0 todo i x = (x', r) ->
  exists new, snd x' = snd x ++ new /\
    Permutation (owed (fst x) ++ concat (map (fun c => map (fun p => snd (fst p)) (starts R c)) new)) (owed (fst x') ++ new).
Proof.
  induction todo as [|todo IH]; intros i x x' r H; cbn [check_loop] in H.
  - injection H as <- _. exists []. simpl. rewrite !app_nil_r. auto.
  - assert (Hrefl : x = x' -> exists new, snd x' = snd x ++ new /\ Permutation (owed (fst x) ++ concat (map (fun c => map (fun p => snd (fst p)) (starts R c)) new)) (owed (fst x') ++ new)).
    { intros <-. exists []. simpl. rewrite !app_nil_r. auto. }
    destruct (nth i _ None) as [id|]; [|apply Hrefl; congruence].
    destruct (_ <? _); [|apply Hrefl; congruence].
    destruct (reappend grow i (fst x)) as [s| | |] eqn:Er; try (apply Hrefl; congruence).
    apply reappend_objs in Er.
    destruct (tm_cb (nth id (ts_objs (fst x)) no_timer)) as [c|] eqn:Ecb.
    + assert (Hone : Permutation (owed (fst x)) (owed (disarm id s) ++ [c])).
      { destruct (cbs_set_nth_none (fun t => mkT (tm_label t) None (tm_deadline t)) (ts_objs s) id) as (lost & H1 & H2); auto.
        rewrite Er in H2. rewrite (H2 c Ecb) in H1. unfold owed at 1. rewrite <- Er. exact H1. }
      destruct (run_cb R now c (disarm id s, snd x)) as [x1 r1] eqn:Ef.
      assert (Ex1 : fst x1 = start_all now (starts R c) (disarm id s) /\ snd x1 = snd x ++ [c]).
      { unfold run_cb in Ef. injection Ef as <- _. auto. }
      destruct Ex1 as [Ex1 Ex2].
      assert (Hfin : exists new, snd x' = snd x1 ++ new /\ Permutation (owed (fst x1) ++ concat (map (fun c => map (fun p => snd (fst p)) (starts R c)) new)) (owed (fst x') ++ new)).
      { destruct r1 as [[]| | |]; [apply IH in H; exact H|..]; injection H as <- _; exists []; simpl; rewrite !app_nil_r; auto. }
      destruct Hfin as (new & N1 & N2). exists (c :: new). split; [rewrite N1, Ex2, <- app_assoc; reflexivity|].
      rewrite Ex1, owed_start_all in N2. cbn [map concat]. rewrite Hone, <- !app_assoc.
      rewrite <- app_assoc in N2.
      transitivity (c :: owed (disarm id s) ++ map (fun p => snd (fst p)) (starts R c) ++ concat (map (fun c => map (fun p => snd (fst p)) (starts R c)) new)).
      { symmetry. apply Permutation_middle. }
      rewrite N2. apply Permutation_middle.
    + apply IH in H. cbn [fst snd] in H. unfold owed at 1 in H. rewrite Er in H. exact H.
Qed.
Lemma at_most_once s st fi : history s st fi -> exists rest, Permutation st (fi ++ rest).
Proof.
  intros H. assert (G : exists lost, Permutation st (fi ++ owed s ++ lost)); [|destruct G as (lost & G); eauto].
  induction H as [|now label c d s st fi H (lost & IH)|label s st fi H (lost & IH)|now R grow s st fi s' log r H (lost & IH) Hc].
  - exists []. reflexivity.
  - exists lost. rewrite owed_start, IH, <- !app_assoc. apply Permutation_app_head, Permutation_app_head, Permutation_app_comm.
  - destruct (owed_cancel label s) as (l2 & H2). exists (l2 ++ lost). rewrite IH, H2, <- app_assoc. reflexivity.
  - unfold do_check, check in Hc. apply loop_owed in Hc. cbn [fst snd] in Hc. destruct Hc as (new & N1 & N2). cbn [app] in N1. subst new.
    exists lost. rewrite IH. rewrite <- !app_assoc. apply Permutation_app_head.
    rewrite (Permutation_app_comm lost), app_assoc, N2, <- app_assoc, !app_assoc. apply Permutation_app_tail, Permutation_app_comm.
Qed.

Lemma remaining_first s : remaining s = match armed s with [] => None | t :: _ => Some (tm_deadline t) end.
Proof.
  unfold remaining, armed, entries. induction (slice s) as [|p l IH]; [reflexivity|]. cbn [map filter first_armed]. unfold is_armed at 1.
  destruct (tm_cb (obj s p)); auto.
Qed.
Lemma remaining_spec clock s : reachable clock s ->
  match remaining s with
  | None => armed s = []
  | Some d => (exists t, In t (armed s) /\ tm_deadline t = d) /\ forall t, In t (armed s) -> d <= tm_deadline t
  end.
Proof.
  intros H. apply armed_sorted in H. rewrite remaining_first. destruct (armed s) as [|t l]; auto. split.
  - exists t. split; auto. now left.
  - intros u [<-|Hu]; [lia|]. inversion H; subst. rewrite Forall_forall in H3. auto.
Qed.
End TimerProofs.
