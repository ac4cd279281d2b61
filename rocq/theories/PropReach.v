(** Property C71: two ends that suit each other can always complete their handshakes from where they are, unless the record numbers give out. *)
From Verif Require Import Base Record Handshake Crypto Messages Negotiation Machine Conn ConnSpec RunSpec Toy PropTrace AgreeSpec ChannelSpec PropChannel JointSpec CompleteSpec CrashSpec PlaySpec SafeSpec ReachSpec CompleteProofs CompleteJoint StallProofs LiveProofs GoProofs PropComplete PropLive PropSafe.

Section Reach.
Variables (Qc Qs : oracle -> Prop) (E : env) (ccfg scfg : config) (cpsks spsks : cache).
Hypothesis ok : joint_ok Qc Qs E ccfg scfg cpsks spsks.
Hypothesis cp : compatible Qc Qs E ccfg scfg cpsks.
Hypothesis Qc_some : exists o, Qc o.
Hypothesis Qs_some : exists o, Qs o.
Notation game := (play Qc Qs E ccfg scfg cpsks spsks).

Lemma goes_called Q c : (exists fuel os c' r, Forall Q os /\ handshake E fuel os c = (c', r) /\ goes_on c' r (blocked E fuel os c)) -> (exists fuel os c', called Q E fuel os c c') \/ numbers_gone Q E c.
Proof.
  intros (fuel & os & c' & r & Qo & H & [G|[[-> W]|G]]).
  - left. exists fuel, os, c'. split; [exact Qo|]. exists r. auto.
  - right. exists fuel, os, c'. auto.
  - left. exists fuel, os, c'. split; [exact Qo|]. exists r. auto.
Qed.
Lemma round_possible ce se t n : game ce se t n -> (exists n', round Qc Qs E n n') \/ used_up Qc Qs E n.
Proof.
  intros H. destruct Qc_some as [oc Q1]. destruct Qs_some as [os Q2].
  pose proof (play_session Qc Qs E ccfg scfg cpsks spsks ok cp _ _ _ _ (deliver_play Qc Qs E ccfg scfg cpsks spsks _ _ _ _ H)) as Ss.
  destruct (goes_called _ _ (client_goes Qc Qs E ccfg scfg cpsks spsks ok cp _ _ _ _ oc Ss eq_refl Q1)) as [(cf & co & c & K1)|U]; [|right; left; exact U].
  destruct (goes_called _ _ (server_goes Qc Qs E ccfg scfg cpsks spsks ok cp _ _ _ _ os Ss eq_refl Q2)) as [(sf & so & s & K2)|U]; [|right; right; exact U].
  left. eexists. exists cf, co, sf, so, c, s. split; [exact K1|]. split; [exact K2|]. reflexivity.
Qed.
Lemma reaches k : forall w ce se t n, game ce se t n -> (31 - rank ce se n <= k)%nat -> (weight n <= w)%nat -> exists n', rounds Qc Qs E n n' /\ (both n' \/ used_up Qc Qs E n').
Proof.
  assert (forall n, both n \/ used_up Qc Qs E n -> exists n', rounds Qc Qs E n n' /\ (both n' \/ used_up Qc Qs E n')) as Z by (intros n B; exists n; split; [constructor|exact B]).
  induction k as [|k IHk].
  - intros w ce se t n H L _. apply Z. left. eapply long; [exact ok|exact cp|exact H|]. lia.
  - induction w as [|w IHw]; intros ce se t n H L W; (destruct (round_possible _ _ _ _ H) as [(n1 & R)|U]; [|apply Z; now right]);
      (destruct (round_step Qc Qs E ccfg scfg cpsks spsks ok cp _ _ _ _ _ H R) as [B|(ce' & se' & H' & D)]; [apply Z; now left|]).
    + destruct D as [D|[_ D]]; [|lia]. destruct (IHk (weight n1) ce' se' t n1 H') as (n' & Rs & B); [lia|lia|]. exists n'. split; [econstructor; eauto|exact B].
    + destruct D as [D|[D D']].
      * destruct (IHk (weight n1) ce' se' t n1 H') as (n' & Rs & B); [lia|lia|]. exists n'. split; [econstructor; eauto|exact B].
      * destruct (IHw ce' se' t n1 H') as (n' & Rs & B); [lia|lia|]. exists n'. split; [econstructor; eauto|exact B].
Qed.
End Reach.

(** C71: a round is possible, *)
Theorem C71_round_possible : forall Qc Qs E ccfg scfg cpsks spsks ce se t n, joint_ok Qc Qs E ccfg scfg cpsks spsks -> compatible Qc Qs E ccfg scfg cpsks -> (exists o, Qc o) -> (exists o, Qs o) ->
  play Qc Qs E ccfg scfg cpsks spsks ce se t n -> (exists n', round Qc Qs E n n') \/ used_up Qc Qs E n.
Proof. exact (fun Qc Qs E ccfg scfg cpsks spsks ce se t n ok cp q1 q2 => round_possible Qc Qs E ccfg scfg cpsks spsks ok cp q1 q2 ce se t n). Qed.
Print Assumptions C71_round_possible.
(** and a number of rounds takes both ends to the end of their handshakes. *)
Theorem C71_completion_possible Qc Qs E ccfg scfg cpsks spsks ce se t n : joint_ok Qc Qs E ccfg scfg cpsks spsks -> compatible Qc Qs E ccfg scfg cpsks -> (exists o, Qc o) -> (exists o, Qs o) ->
  play Qc Qs E ccfg scfg cpsks spsks ce se t n ->
  exists n', rounds Qc Qs E n n' /\ ((c_complete (n_client n') = true /\ c_complete (n_server n') = true) \/ used_up Qc Qs E n').
Proof. exact (fun ok cp q1 q2 H => reaches Qc Qs E ccfg scfg cpsks spsks ok cp q1 q2 _ _ ce se t n H (le_n _) (le_n _)). Qed.
Print Assumptions C71_completion_possible.

Lemma nets_lead E j n : rounds_end_b E n j = true -> forall k, rounds toy_plain toy_plain E n (nets E n k).
Proof.
  intros R k. assert (forall k i, rounds toy_plain toy_plain E (nets E n i) (nets E n (k + i))) as K.
  { clear k. induction k as [|k IH]; intros i; [constructor|]. econstructor; [exact (nets_rounds E j n R i)|]. replace (Datatypes.S k + i)%nat with (k + Datatypes.S i)%nat by lia. apply IH. }
  specialize (K k 0%nat). rewrite Nat.add_0_r in K. exact K.
Qed.
(** Two ends in the middle of a handshake meet the conditions, and have not used up their numbers. *)
Example C71_example :
  let E := ec_env P256 in let cfg := ec_config [toy_cert] [] in
  joint_ok toy_plain toy_plain E cfg cfg [] [] /\ compatible toy_plain toy_plain E cfg cfg [] /\ (exists o, toy_plain o) /\
  exists ce se t n, play toy_plain toy_plain E cfg cfg [] [] ce se t n /\ in_middle n = true /\
    exists n', rounds toy_plain toy_plain E n n' /\ c_complete (n_client n') && c_complete (n_server n') = true.
Proof.
  cbv zeta. destruct C70_example as (A & B & _). split; [exact A|]. split; [exact B|]. split.
  { pose proof (plain_oracles_ok [1]) as K. destruct (plain_oracles [1]) as [|o l] eqn:P; [discriminate P|]. inversion K; subst. eauto. }
  destruct (moves (ec_env P256) (firstn 6 plain_moves) (fresh_net (ec_config [toy_cert] []))) as [n|] eqn:M.
  - destruct (moves_play _ _ _ _ _ _ _ _ _ _ n (pl_new _ _ (ec_env P256) (ec_config [toy_cert] []) (ec_config [toy_cert] []) [] []) M) as (ce & se & t & Pl). exists ce, se, t, n. split; [exact Pl|].
    assert (n = flying) as -> by (unfold flying; now rewrite M). split; [nf|].
    assert (rounds_end_b (ec_env P256) flying 9 = true) as R by nf. exists (nets (ec_env P256) flying 9). split; [exact (nets_lead _ 9 _ R 9)|nf].
  - exfalso. revert M. assert (match moves (ec_env P256) (firstn 6 plain_moves) (fresh_net (ec_config [toy_cert] [])) with Some _ => true | None => false end = true) as K by nf. intros M. rewrite M in K. discriminate K.
Qed.
