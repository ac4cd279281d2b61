(** Property C75: [Dial] keeps its time limit, returns only what it has finished with, and leaves no goroutine behind. *)
From Verif Require Import Base Limit LimitSpec.

Definition sent_timer (s : dialing) : nat := match d_timer s with TimerDone => 1 | _ => 0 end.
Definition sent_shaker (s : dialing) : nat := match d_shaker s with ShakerDone => 1 | _ => 0 end.
Definition read_by_caller (s : dialing) : nat := match d_caller s, d_shaker s with Returned _, NoShaker => 0 | Returned _, _ => 1 | _, _ => 0 end.
Definition good (limited : bool) (s : dialing) : Prop :=
  (List.length (d_channel s) + read_by_caller s = sent_timer s + sent_shaker s)%nat /\
  (d_timer s = NoTimer <-> limited = false) /\
  (forall ok, In (Result ok) (d_channel s) -> d_shaker s = ShakerDone /\ d_outcome s = Some ok) /\
  (In TimedOut (d_channel s) -> d_timer s = TimerDone) /\
  (forall ok, d_shaker s = Shook ok -> d_outcome s = Some ok) /\
  match d_caller s with
  | Dialling => d_shaker s = NoShaker /\ d_closed s = false /\ d_dialled s = false
  | ShakingAlone => d_shaker s = NoShaker /\ d_closed s = false /\ d_dialled s = true /\ limited = false
  | Waiting => d_shaker s <> NoShaker /\ d_closed s = false /\ d_dialled s = true /\ limited = true
  | Returned true => d_closed s = false /\ d_dialled s = true /\ d_outcome s = Some true /\ (d_shaker s = ShakerDone \/ d_shaker s = NoShaker /\ limited = false)
  | Returned false => (d_dialled s = true -> d_closed s = true) /\ (d_dialled s = false \/ d_outcome s = Some false \/ d_timer s = TimerDone) /\ (d_dialled s = false -> d_shaker s = NoShaker)
  end.
Lemma good_start limit : good (negb (limit =? 0)%Z) (dial_start limit).
Proof. unfold good, dial_start. destruct (limit =? 0)%Z; cbn; intuition (try discriminate; try contradiction; auto). Qed.
Ltac cases := repeat match goal with
  | H : None = Some _ |- _ => discriminate H
  | H : Some _ = Some _ |- _ => injection H as <-
  | H : match ?x with _ => _ end = Some _ |- _ => destruct x eqn:?
  | H : (if ?x then _ else _) = Some _ |- _ => destruct x eqn:?
  end.
Ltac fin := repeat split; intros; repeat match goal with
  | H : _ /\ _ |- _ => destruct H
  | H : In _ (_ ++ _) |- _ => apply in_app_or in H; destruct H as [H|[H|[]]]
  end; try discriminate; try congruence; try lia; eauto; try solve [intuition (try congruence; try lia; eauto)];
  try match goal with Rs : forall ok, In (Result ok) _ -> _ , H : In (Result _) _ |- _ => first [destruct (Rs _ H)|destruct (Rs _ (or_intror H))]; try congruence end;
  try match goal with To : In TimedOut _ -> _, H : In TimedOut _ |- _ => first [specialize (To H)|specialize (To (or_intror H))]; try congruence end; try solve [intuition (try congruence; try lia; eauto)].
Lemma good_step limited s h s' : good limited s -> happen s h = Some s' -> good limited s'.
Proof.
  destruct s as [t k c ch di cl oc]. unfold good. cbn [d_timer d_shaker d_caller d_channel d_dialled d_closed d_outcome]. intros (Ln & Tm & Rs & To & Sh & Ca) H.
  unfold sent_timer, sent_shaker, read_by_caller in *. cbn [d_timer d_shaker d_caller d_channel] in *.
  destruct h as [| |ok|ok| | |]; cbn [happen] in H; cases; cbn [d_timer d_shaker d_caller d_channel d_dialled d_closed d_outcome]; subst.
  all: try match goal with m : message |- _ => destruct m end; repeat match goal with b : bool |- _ => destruct b | c : caller |- _ => destruct c end.
  all: repeat match goal with H : _ /\ _ |- _ => destruct H | H : _ <-> _ |- _ => destruct H end.
  all: rewrite ?app_length in *; cbn [List.length negb] in *.
  all: try discriminate; try congruence; subst; try (destruct k); try (destruct t); cbn [Nat.add] in *; try discriminate; try congruence; try solve [exfalso; auto; intuition congruence].
  all: try match goal with Rs : forall ok, In (Result ok) (Result ?b :: _) -> _ |- _ => destruct (Rs b (or_introl eq_refl)) | To : In TimedOut (TimedOut :: _) -> _ |- _ => pose proof (To (or_introl eq_refl)) end; try discriminate; subst.
  all: fin.
  all: match goal with H : Result _ = Result _ |- _ => injection H as <- end; auto.
Qed.
Lemma good_run limited hs : forall s s', good limited s -> happens s hs = Some s' -> good limited s'.
Proof. induction hs as [|h hs IH]; intros s s' G H; cbn [happens] in H; [injection H as <-; exact G|]. destruct (happen s h) as [m|] eqn:E; [|discriminate H]. eapply IH; [|exact H]. eapply good_step; eassumption. Qed.
Lemma good_reached limit hs s : happens (dial_start limit) hs = Some s -> good (negb (limit =? 0)%Z) s.
Proof. apply good_run, good_start. Qed.

Lemma room limit hs s : happens (dial_start limit) hs = Some s ->
  (d_timer s = Fired -> exists s', happen s TimerSends = Some s') /\ (forall ok, d_shaker s = Shook ok -> exists s', happen s ShakerSends = Some s').
Proof.
  intros H. apply good_reached in H. destruct H as (Ln & _). destruct s as [t k c ch di cl oc]. unfold sent_timer, sent_shaker in Ln. cbn [d_timer d_shaker d_caller d_channel happen] in *.
  split; [intros -> |intros ok ->]; (destruct (Nat.ltb_spec (List.length ch) capacity) as [L|L]; [eauto|]); exfalso; unfold capacity in L; first [destruct k; lia | destruct t; lia].
Qed.
Lemma finished limit hs s : happens (dial_start limit) hs = Some s ->
  (d_caller s = Returned true -> d_outcome s = Some true /\ d_closed s = false /\ (d_shaker s = NoShaker \/ d_shaker s = ShakerDone)) /\
  (d_caller s = Returned false -> (d_dialled s = true -> d_closed s = true) /\ (d_dialled s = false \/ d_outcome s = Some false \/ d_timer s = TimerDone)).
Proof. intros H. apply good_reached in H. destruct H as (_ & _ & _ & _ & _ & Ca). split; intros E; rewrite E in Ca; intuition. Qed.
Lemma in_time limit hs s : limit <> 0%Z -> happens (dial_start limit) hs = Some s -> d_caller s = Waiting ->
  exists more s', Forall by_itself more /\ happens s more = Some s' /\ returned s'.
Proof.
  intros Nz H W. apply good_reached in H. destruct H as (Ln & Tm & Rs & To & Sh & Ca). rewrite W in Ca. destruct s as [t k c ch di cl oc]. unfold sent_timer, sent_shaker, read_by_caller in Ln. cbn [d_timer d_shaker d_caller d_channel] in *. subst c.
  destruct ch as [|m ch].
  - destruct t.
    + exfalso. destruct (Z.eqb_spec limit 0) as [|_]; [congruence|]. destruct Tm as [Tm _]. specialize (Tm eq_refl). discriminate Tm.
    + eexists [TimeUp; TimerSends; CallerReceives], _. split; [repeat constructor|]. split; [reflexivity|]. eexists. reflexivity.
    + eexists [TimerSends; CallerReceives], _. split; [repeat constructor|]. split; [reflexivity|]. eexists. reflexivity.
    + exfalso. cbn [List.length Nat.add] in Ln. destruct k; discriminate Ln.
  - eexists [CallerReceives], _. split; [repeat constructor|]. split; [reflexivity|]. eexists. reflexivity.
Qed.
Lemma no_leak limit hs s : happens (dial_start limit) hs = Some s -> returned s -> exists more s', Forall by_itself more /\ happens s more = Some s' /\ all_over s' /\ d_caller s' = d_caller s.
Proof.
  intros H [ok R].
  (* the timer first, then the handshake *)
  assert (exists more s', Forall by_itself more /\ happens s more = Some s' /\ (d_timer s' = NoTimer \/ d_timer s' = TimerDone) /\ d_caller s' = d_caller s) as (m1 & s1 & F1 & H1 & T1 & C1).
  { destruct (d_timer s) eqn:Td; try (exists [], s; split; [constructor|]; split; [reflexivity|]; auto; fail).
    - assert (exists a, happen s TimeUp = Some a) as (a & Ea) by (destruct s; cbn in *; subst; eauto).
      assert (happens (dial_start limit) (hs ++ [TimeUp]) = Some a) as Ha.
      { clear - H Ea. revert H. generalize (dial_start limit). induction hs as [|h hs IH]; intros x H; cbn [List.app happens] in *; [injection H as ->; now rewrite Ea|]. destruct (happen x h); [now apply IH|discriminate H]. }
      assert (d_timer a = Fired /\ d_caller a = d_caller s) as [Fa Ca] by (destruct s; cbn in *; subst; injection Ea as <-; auto).
      destruct (proj1 (room _ _ _ Ha) Fa) as (b & Eb). exists [TimeUp; TimerSends], b. split; [repeat constructor|]. split; [cbn [happens]; now rewrite Ea, Eb|]. destruct a as [ta ka ca cha dia cla oca]. cbn [d_timer d_caller happen] in *. subst ta. destruct (_ <? _)%nat; [|discriminate Eb]. injection Eb as <-. auto.
    - destruct (proj1 (room _ _ _ H) Td) as (b & Eb). exists [TimerSends], b. split; [repeat constructor|]. split; [cbn [happens]; now rewrite Eb|]. destruct s as [ta ka ca cha dia cla oca]. cbn [d_timer d_caller happen] in *. subst ta. destruct (_ <? _)%nat; [|discriminate Eb]. injection Eb as <-. auto. }
  assert (forall a x y z, happens x a = Some y -> forall b, happens y b = Some z -> happens x (a ++ b) = Some z) as Join.
  { clear. induction a as [|h a IH]; intros x y z Ha b Hb; cbn [List.app happens] in *; [injection Ha as ->; exact Hb|]. destruct (happen x h); [eapply IH; eassumption|discriminate Ha]. }
  pose proof (Join _ _ _ _ H _ H1) as R1. rewrite <- C1. pose proof C1 as Cs. rewrite R in C1.
  assert (forall a pre, happens (dial_start limit) pre = Some a -> d_timer a = d_timer s1 -> d_caller a = d_caller s1 -> forall ok', d_shaker a = Shook ok' -> exists b, happen a ShakerSends = Some b /\ all_over b /\ d_caller b = d_caller s1) as Send.
  { intros a pre Ha Ta Ca ok' Sa. destruct (proj2 (room _ _ _ Ha) _ Sa) as (b & Eb). exists b. split; [exact Eb|]. destruct a as [ta ka ca cha dia cla oca]. cbn [d_timer d_caller d_shaker happen] in *. subst ka ta ca. destruct (_ <? _)%nat; [|discriminate Eb]. injection Eb as <-. split; [split; [exact T1|right; reflexivity]|reflexivity]. }
  destruct (d_shaker s1) eqn:Sd.
  - exists m1, s1. split; [exact F1|]. split; [exact H1|]. split; [split; auto|congruence].
  - pose proof (good_reached _ _ _ R1) as (_ & _ & _ & _ & _ & Ca). rewrite C1 in Ca. destruct ok.
    + exfalso. destruct Ca as (_ & _ & _ & [K|[K _]]); congruence.
    + destruct Ca as (Cl & _ & Nd). assert (d_closed s1 = true) as Cd by (destruct (d_dialled s1) eqn:Di; [auto|rewrite Nd in Sd by reflexivity; discriminate Sd]).
      assert (exists a, happen s1 ShakeBreaks = Some a /\ d_timer a = d_timer s1 /\ d_caller a = d_caller s1 /\ d_shaker a = Shook false) as (a & Ea & Ta & Ca & Sa) by (destruct s1; cbn in *; subst; eexists; repeat split).
      assert (happens s1 [ShakeBreaks] = Some a) as Ha by (cbn [happens]; now rewrite Ea).
      destruct (Send a _ (Join _ _ _ _ R1 _ Ha) Ta Ca _ Sa) as (b & Eb & Ob & Cb). exists (m1 ++ [ShakeBreaks; ShakerSends]), b. split; [apply Forall_app; split; [exact F1|repeat constructor]|]. split; [eapply Join; [exact H1|]; cbn [happens]; now rewrite Ea, Eb|]. split; [exact Ob|exact Cb].
  - destruct (Send s1 _ R1 eq_refl eq_refl _ Sd) as (b & Eb & Ob & Cb). exists (m1 ++ [ShakerSends]), b. split; [apply Forall_app; split; [exact F1|repeat constructor]|]. split; [eapply Join; [exact H1|]; cbn [happens]; now rewrite Eb|]. split; [exact Ob|exact Cb].
  - exists m1, s1. split; [exact F1|]. split; [exact H1|]. split; [split; auto|congruence].
Qed.
Lemma settled limit hs s : happens (dial_start limit) hs = Some s -> quiet s -> (returned s -> all_over s) /\ (limit <> 0%Z -> d_caller s = Dialling \/ returned s).
Proof.
  intros H Q. split.
  - intros R. destruct (no_leak _ _ _ H R) as (more & s' & F & Hm & Ov & _). destruct more as [|h more]; cbn [happens] in Hm; [injection Hm as <-; exact Ov|]. apply Forall_cons_iff in F. destruct F as [Fh _]. rewrite (Q _ Fh) in Hm. discriminate Hm.
  - intros Nz. destruct (d_caller s) eqn:C; [left; reflexivity|..|right; eexists; exact C].
    + apply good_reached in H. destruct H as (_ & _ & _ & _ & _ & Ca). rewrite C in Ca. destruct Ca as (_ & _ & _ & L). destruct (Z.eqb_spec limit 0); [contradiction|discriminate L].
    + destruct (in_time _ _ _ Nz H C) as (more & s' & F & Hm & Rt). destruct more as [|h more]; cbn [happens] in Hm; [injection Hm as <-; right; exact Rt|]. apply Forall_cons_iff in F. destruct F as [Fh _]. rewrite (Q _ Fh) in Hm. discriminate Hm.
Qed.
Definition left_timer (t : timer) : nat := match t with Armed => 2 | Fired => 1 | _ => 0 end.
Definition left_shaker (k : shaker) : nat := match k with Shaking => 2 | Shook _ => 1 | _ => 0 end.
Definition left_caller (c : caller) : nat := match c with Dialling => 4 | ShakingAlone | Waiting => 1 | Returned _ => 0 end.
Definition left_of (s : dialing) : nat := (left_timer (d_timer s) + left_shaker (d_shaker s) + left_caller (d_caller s))%nat.
Lemma happen_left s h s' : happen s h = Some s' -> (left_of s' < left_of s)%nat.
Proof.
  destruct s as [t k c ch di cl oc]. unfold left_of. intros H. destruct h; cbn [happen] in H; cases; cbn [d_timer d_shaker d_caller left_timer left_shaker left_caller]; try lia. all: destruct k; cbn [left_shaker]; lia.
Qed.
Lemma ends hs : forall s s', happens s hs = Some s' -> (List.length hs + left_of s' <= left_of s)%nat.
Proof.
  induction hs as [|h hs IH]; intros s s' H; cbn [happens List.length] in *; [injection H as ->; lia|]. destruct (happen s h) as [m|] eqn:E; [|discriminate H]. apply IH in H. apply happen_left in E. lia.
Qed.
Lemma ends_soon limit hs s : happens (dial_start limit) hs = Some s -> (List.length hs <= 6)%nat.
Proof. intros H. apply ends in H. unfold left_of at 2 in H. unfold dial_start in H. cbn [d_timer d_shaker d_caller] in H. destruct (limit =? 0)%Z; cbn [left_timer left_shaker left_caller] in H; lia. Qed.
Lemma limit_is timeout deadline now : deadline <> Some now ->
  match latest timeout deadline now with None => limitOf timeout deadline now = 0%Z | Some t => limitOf timeout deadline now <> 0%Z /\ t = (now + limitOf timeout deadline now)%Z end.
Proof.
  intros N. unfold latest, limitOf. destruct deadline as [d|].
  - assert (d <> now) as Nd by congruence. destruct timeout as [|p|p]; cbn [Z.eqb orb]; [split; lia|..]; (destruct (Z.ltb_spec (d - now)%Z (Z.pos p)) + destruct (Z.ltb_spec (d - now)%Z (Z.neg p))); split; lia.
  - destruct timeout as [|p|p]; [reflexivity|split; [discriminate|reflexivity]..].
Qed.

(** C75. The timer and the goroutine of the handshake never wait for room in the channel. *)
Theorem C75_room : forall limit hs s, happens (dial_start limit) hs = Some s ->
  (d_timer s = Fired -> exists s', happen s TimerSends = Some s') /\ (forall ok, d_shaker s = Shook ok -> exists s', happen s ShakerSends = Some s').
Proof. exact room. Qed.
Print Assumptions C75_room.
(** A connection that is returned has shaken hands, is open, and is used by no goroutine of the call; with an error the connection is closed, if there is one, and the cause is the network, the handshake or the time. *)
Theorem C75_returned : forall limit hs s, happens (dial_start limit) hs = Some s ->
  (d_caller s = Returned true -> d_outcome s = Some true /\ d_closed s = false /\ (d_shaker s = NoShaker \/ d_shaker s = ShakerDone)) /\
  (d_caller s = Returned false -> (d_dialled s = true -> d_closed s = true) /\ (d_dialled s = false \/ d_outcome s = Some false \/ d_timer s = TimerDone)).
Proof. exact finished. Qed.
Print Assumptions C75_returned.
(** With a limit the call returns without help of the network once it is connected; *)
Theorem C75_in_time : forall limit hs s, limit <> 0%Z -> happens (dial_start limit) hs = Some s -> d_caller s = Waiting ->
  exists more s', Forall by_itself more /\ happens s more = Some s' /\ returned s'.
Proof. exact in_time. Qed.
Print Assumptions C75_in_time.
(** and when it has returned, its goroutines end without help of the network. *)
Theorem C75_no_leak : forall limit hs s, happens (dial_start limit) hs = Some s -> returned s -> exists more s', Forall by_itself more /\ happens s more = Some s' /\ all_over s' /\ d_caller s' = d_caller s.
Proof. exact no_leak. Qed.
Print Assumptions C75_no_leak.
(** So it is in every order of events: there are no more than six, and when no more can happen without the network, a call that has returned has left no goroutine, and one with a limit that is connected has returned. *)
Theorem C75_every_order : forall limit hs s, happens (dial_start limit) hs = Some s ->
  (List.length hs <= 6)%nat /\ (quiet s -> (returned s -> all_over s) /\ (limit <> 0%Z -> d_caller s = Dialling \/ returned s)).
Proof. exact (fun limit hs s H => conj (ends_soon limit hs s H) (settled limit hs s H)). Qed.
Print Assumptions C75_every_order.
(** The limit is the one that was asked for unless [Deadline] is this very moment; *)
Theorem C75_limit_partial : forall timeout deadline now, deadline <> Some now ->
  match latest timeout deadline now with None => limitOf timeout deadline now = 0%Z | Some t => limitOf timeout deadline now <> 0%Z /\ t = (now + limitOf timeout deadline now)%Z end.
Proof. exact limit_is. Qed.
Print Assumptions C75_limit_partial.
(** then there is none. *)
Theorem C75_limit_refuted : exists timeout deadline now, latest timeout deadline now <> None /\ limitOf timeout deadline now = 0%Z /\ d_timer (dial_start (limitOf timeout deadline now)) = NoTimer.
Proof. exists 5000000000%Z, (Some 17%Z), 17%Z. split; [discriminate|]. split; reflexivity. Qed.
Print Assumptions C75_limit_refuted.

(** A handshake that ends just after the time is up, its result sent after that of the timer: the call fails and closes the connection. And a call in time, the timer of which runs on. *)
Example C75_case : let late := [NetDials true; TimeUp; TimerSends; NetShakes true; ShakerSends; CallerReceives] in let early := [NetDials true; NetShakes true; ShakerSends; CallerReceives] in
  option_map (fun s => (d_caller s, d_closed s, d_channel s)) (happens (dial_start 1000) late) = Some (Returned false, true, [Result true]) /\
  option_map (fun s => (d_caller s, d_closed s, d_timer s)) (happens (dial_start 1000) early) = Some (Returned true, false, Armed) /\
  option_map d_caller (happens (dial_start 1000) [NetDials true; TimeUp]) = Some Waiting /\ option_map d_caller (happens (dial_start 0) [NetDials true; NetShakes true]) = Some (Returned true) /\
  limitOf 1000 (Some 3000%Z) 2500 = 500%Z /\ latest 1000 (Some 3000%Z) 2500 = Some 3000%Z.
Proof. repeat split. Qed.
(** A moment at which nothing more can happen without the network, after six events. *)
Example C75_quiet_case : exists s, happens (dial_start 1000) [NetDials true; TimeUp; TimerSends; CallerReceives; ShakeBreaks; ShakerSends] = Some s /\ quiet s /\ returned s /\ d_outcome s = Some false.
Proof. eexists. split; [reflexivity|]. split; [intros [| |ok|ok| | |] B; first [reflexivity|destruct B]|]. split; [eexists; reflexivity|reflexivity]. Qed.
