(** Property C69: two ends that suit each other complete their handshakes after finitely many rounds in which what was sent arrives and both
    call [Handshake]. *)
From Verif Require Import Base Frame Record RecordSpec Handshake Crypto CryptoSpec PropCrypto Messages MessageSpec Pki SigSpec Negotiation PropNegotiation Machine Conn ConnSpec RunSpec SessionSpec Toy
  PropTrace PropAgree AgreeSpec ChannelSpec PropChannel PropServer PropEnds JointSpec JointProofs PropJoint CompleteSpec PlaySpec CompleteProofs CompleteJoint PropComplete HandshakeProofs StallProofs LiveProofs PropStall.

Import FrameProofs.
Section Live.
Variables (Qc Qs : oracle -> Prop) (E : env) (ccfg scfg : config) (cpsks spsks : cache).
Hypothesis ok : joint_ok Qc Qs E ccfg scfg cpsks spsks.
Hypothesis cp : compatible Qc Qs E ccfg scfg cpsks.
Notation game := (play Qc Qs E ccfg scfg cpsks spsks).

Lemma deliver_play ce se t n : game ce se t n -> game ce se t (mkNet (delivery (n_client n) (n_down n)) (delivery (n_server n) (n_up n)) [] []).
Proof.
  intros H. destruct n as [C S up down]. cbn [n_client n_server n_up n_down].
  assert (game ce se t (mkNet (delivery C down) S up [])) as H1.
  { destruct down as [|b l]; [exact H|]. apply (pl_deliver_client _ _ _ _ _ _ _ _ _ _ _ (b :: l) []) in H; [exact H|]. cbn. now rewrite app_nil_r. }
  destruct up as [|b l]; [exact H1|]. apply (pl_deliver_server _ _ _ _ _ _ _ _ _ _ _ (b :: l) []) in H1; [exact H1|]. cbn. now rewrite app_nil_r.
Qed.
Lemma call_play ce se t n cf co c sf so s : game ce se t n -> called Qc E cf co (n_client n) c -> called Qs E sf so (n_server n) s ->
  game (ce ++ handshake_events E cf co (n_client n)) (se ++ handshake_events E sf so (n_server n)) t
    (mkNet (taken c) (taken s) (n_up n ++ concat (l_out (c_out c))) (n_down n ++ concat (l_out (c_out s)))).
Proof.
  intros H (Q1 & r1 & T1 & D1) (Q2 & r2 & T2 & D2).
  assert (ended r1 \/ blocked E cf co (n_client n)) as D1' by (destruct D1 as [|[]]; auto). assert (ended r2 \/ blocked E sf so (n_server n)) as D2' by (destruct D2 as [|[]]; auto).
  exact (pl_server_handshake _ _ _ _ _ _ _ _ _ _ (client_calls n c) sf so s r2 (pl_client_handshake _ _ _ _ _ _ _ _ _ _ _ cf co c r1 H Q1 T1 D1') Q2 T2 D2').
Qed.
Lemma bit_delivery c b : bit (delivery c b) = bit c. Proof. destruct b; reflexivity. Qed.
Lemma complete_delivery c b : c_complete (delivery c b) = c_complete c. Proof. destruct b; reflexivity. Qed.
Lemma stock_delivery c b : (stock (c_ctx (delivery c b)) <= stock (c_ctx c) + 4 * List.length b)%nat.
Proof.
  destruct b as [|x b]; [cbn [delivery]; lia|]. cbn [delivery]. unfold stock, mass.
  change (hl_frame (x_in (c_ctx (arrives c [RBytes (x :: b)])))) with (hl_frame (x_in (c_ctx c))).
  set (l := hl_conn (x_in (c_ctx c))). change (hl_conn (x_in (c_ctx (arrives c [RBytes (x :: b)])))) with (mkRl (l_core l) (l_frame l) (l_cached l) (l_in l ++ [RBytes (x :: b)]) (l_out l)).
  unfold rl_data. cbn [l_in l_frame]. rewrite ChannelProofs.data_of_app, !app_length. cbn [data_of map concat flat_map List.length]. rewrite ?app_length. cbn [List.length]. lia.
Qed.

Definition rank (ce se : list event) (n : net) : nat := 2 * (List.length ce + List.length se) + bit (n_client n) + bit (n_server n).
Definition weight (n : net) : nat := stock (c_ctx (n_client n)) + stock (c_ctx (n_server n)) + 4 * (List.length (n_up n) + List.length (n_down n)).
Definition both (n : net) : Prop := c_complete (n_client n) = true /\ c_complete (n_server n) = true.

Lemma bit_le c : (bit c <= 1)%nat.
Proof. unfold bit. destruct (c_hState c) as [s|]; [destruct s|]; lia. Qed.
Lemma long ce se t n : game ce se t n -> (31 <= rank ce se n)%nat -> both n.
Proof.
  intros H L. unfold both. destruct (c_complete (n_client n) && c_complete (n_server n)) eqn:B; [now apply andb_true_iff in B|]. exfalso.
  pose proof (play_session Qc Qs E ccfg scfg cpsks spsks ok cp _ _ _ _ H) as Ss. pose proof (short Qc Qs E ccfg scfg cpsks spsks ok cp _ _ _ _ Ss B) as K.
  unfold rank in L. pose proof (bit_le (n_client n)). pose proof (bit_le (n_server n)). lia.
Qed.
Lemma moved_rank evs c c' d : moved evs c c' d -> (2 * List.length evs + bit c' > bit c)%nat \/ (evs = [] /\ spare c c' /\ (d -> (stock (c_ctx c') < stock (c_ctx c))%nat)).
Proof.
  intros [H|[H|H]]; [left|left; lia|destruct evs as [|e l]; [right; tauto|left]].
  - destruct evs as [|e l]; [congruence|]. cbn [List.length]. pose proof (bit_le c). lia.
  - cbn [List.length]. pose proof (bit_le c). lia.
Qed.
Lemma spare_bit c c' : spare c c' -> bit c' = bit c.
Proof. intros (H & _). unfold bit. now rewrite H. Qed.
Lemma round_step ce se t n n' : game ce se t n -> round Qc Qs E n n' -> both n \/
  exists ce' se', game ce' se' t n' /\ ((rank ce se n < rank ce' se' n')%nat \/ (rank ce' se' n' = rank ce se n /\ (weight n' < weight n)%nat)).
Proof.
  intros H (cf & co & sf & so & c & s & K1 & K2 & ->).
  pose proof (deliver_play _ _ _ _ H) as H1. set (n1 := mkNet (delivery (n_client n) (n_down n)) (delivery (n_server n) (n_up n)) [] []) in *.
  pose proof (play_session Qc Qs E ccfg scfg cpsks spsks ok cp _ _ _ _ H1) as Ss.
  pose proof (call_play _ _ _ n1 _ _ _ _ _ _ H1 K1 K2) as H2.
  destruct K1 as (Q1 & r1 & T1 & D1). destruct K2 as (Q2 & r2 & T2 & D2).
  destruct (client_unfailing Qc Qs E ccfg scfg cpsks spsks ok cp _ _ _ _ cf co Ss Q1) as [U1 _]. destruct (server_unfailing Qc Qs E ccfg scfg cpsks spsks ok cp _ _ _ _ sf so Ss Q2) as [U2 _].
  cbn [n1 n_client n_server n_up n_down List.app] in *. rewrite T1 in U1. rewrite T2 in U2. cbn [snd] in U1, U2.
  pose proof (session_joined _ _ _ _ _ _ _ ok _ _ _ _ Ss) as (_ & _ & _ & L1 & L2). cbn [n_client n_server n1] in L1, L2.
  pose proof (stock_delivery (n_client n) (n_down n)) as W1. pose proof (stock_delivery (n_server n) (n_up n)) as W2.
  pose proof (bit_delivery (n_client n) (n_down n)) as B1. pose proof (bit_delivery (n_server n) (n_up n)) as B2.
  pose proof (complete_delivery (n_client n) (n_down n)) as C1. pose proof (complete_delivery (n_server n) (n_up n)) as C2.
  assert (calls E cf co (delivery (n_client n) (n_down n)) c) as X1 by (exists r1; auto).
  assert (calls E sf so (delivery (n_server n) (n_up n)) s) as X2 by (exists r2; auto).
  destruct (calls_both Qc Qs E ccfg scfg cpsks spsks ok cp _ _ _ _ _ _ _ _ _ _ _ Ss Q1 X1 X2) as [[F1 F2]|(d1 & d2 & Du & M1 & M2)]; [left; split; congruence|right].
  eexists. eexists. split; [exact H2|]. clear H2 H1 Ss Q1 Q2 T1 T2 D1 D2 U1 U2 X1 X2 H C1 C2. clear n1.
  set (e1 := handshake_events E cf co (delivery (n_client n) (n_down n))) in *. set (e2 := handshake_events E sf so (delivery (n_server n) (n_up n))) in *. clearbody e1 e2.
  set (C1 := delivery (n_client n) (n_down n)) in *. set (S1 := delivery (n_server n) (n_up n)) in *. clearbody C1 S1.
  unfold rank, weight. cbn [n_client n_server n_up n_down]. rewrite !app_length. change (bit (taken c)) with (bit c). change (bit (taken s)) with (bit s).
  change (stock (c_ctx (taken c))) with (stock (c_ctx c)). change (stock (c_ctx (taken s))) with (stock (c_ctx s)).
  apply moved_rank in M1, M2. destruct M1 as [M1|(-> & P1 & S1')].
  - left. destruct M2 as [M2|(-> & P2 & _)]; [lia|]. apply spare_bit in P2. cbn [List.length]. lia.
  - destruct M2 as [M2|(-> & P2 & S2')]; [left; apply spare_bit in P1; cbn [List.length]; lia|right].
    pose proof (spare_bit _ _ P1) as Z1. pose proof (spare_bit _ _ P2) as Z2. cbn [List.length]. split; [lia|].
    destruct P1 as (_ & _ & O1 & G1). destruct P2 as (_ & _ & O2 & G2). rewrite O1, O2, L1, L2. cbn [concat List.length].
    destruct Du as [Du|Du]; [specialize (S1' Du)|specialize (S2' Du)]; lia.
Qed.
Lemma rounds_end k : forall w ce se t f, game ce se t (f 0%nat) -> (forall i, round Qc Qs E (f i) (f (Datatypes.S i))) -> (31 - rank ce se (f 0%nat) <= k)%nat -> (weight (f 0%nat) <= w)%nat -> exists i, both (f i).
Proof.
  induction k as [|k IHk].
  - intros w ce se t f H _ L _. exists 0%nat. eapply long; [exact H|]. lia.
  - induction w as [|w IHw]; intros ce se t f H R L W; destruct (round_step _ _ _ _ _ H (R 0%nat)) as [B|(ce' & se' & H' & D)]; try (exists 0%nat; exact B).
    + destruct D as [D|[_ D]]; [|lia]. destruct (IHk (weight (f 1%nat)) ce' se' t (fun i => f (Datatypes.S i)) H') as (i & B); [intros i; apply R|lia|lia|]. exists (Datatypes.S i). exact B.
    + destruct D as [D|[D D']].
      * destruct (IHk (weight (f 1%nat)) ce' se' t (fun i => f (Datatypes.S i)) H') as (i & B); [intros i; apply R|lia|lia|]. exists (Datatypes.S i). exact B.
      * destruct (IHw ce' se' t (fun i => f (Datatypes.S i)) H') as (i & B); [intros i; apply R|lia|lia|]. exists (Datatypes.S i). exact B.
Qed.
Lemma both_stays n n' : both n -> round Qc Qs E n n' -> both n'.
Proof.
  intros [A B] (cf & co & sf & so & c & s & (_ & r1 & T1 & _) & (_ & r2 & T2 & _) & ->). unfold handshake in T1, T2. rewrite complete_delivery in T1, T2. rewrite A in T1. rewrite B in T2. injection T1 as <- _. injection T2 as <- _.
  split; cbn [n_client n_server]; [change (c_complete (delivery (n_client n) (n_down n)) = true)|change (c_complete (delivery (n_server n) (n_up n)) = true)]; now rewrite complete_delivery.
Qed.
Lemma rounds_complete ce se t f : game ce se t (f 0%nat) -> (forall i, round Qc Qs E (f i) (f (Datatypes.S i))) -> exists i, forall j, (i <= j)%nat -> c_complete (n_client (f j)) = true /\ c_complete (n_server (f j)) = true.
Proof.
  intros H R. destruct (rounds_end _ _ _ _ _ _ H R (le_n _) (le_n _)) as (i & B). exists i. intros j L. induction L as [|j L IH]; [exact B|]. exact (both_stays _ _ IH (R j)).
Qed.
End Live.

Theorem C69_rounds_complete Qc Qs E ccfg scfg cpsks spsks ce se t f :
  joint_ok Qc Qs E ccfg scfg cpsks spsks -> compatible Qc Qs E ccfg scfg cpsks -> play Qc Qs E ccfg scfg cpsks spsks ce se t (f 0%nat) ->
  (forall i, round Qc Qs E (f i) (f (Datatypes.S i))) ->
  exists i, forall j, (i <= j)%nat -> c_complete (n_client (f j)) = true /\ c_complete (n_server (f j)) = true.
Proof. exact (fun ok cp => rounds_complete Qc Qs E ccfg scfg cpsks spsks ok cp ce se t f). Qed.
Print Assumptions C69_rounds_complete.

(** ** Two ends that do so *)

Definition call_of (E : env) (c : conn) : conn * res unit := handshake E 9 (plain_oracles nine) c.
Definition next_round (E : env) (n : net) : net :=
  let c := fst (call_of E (delivery (n_client n) (n_down n))) in let s := fst (call_of E (delivery (n_server n) (n_up n))) in
  mkNet (taken c) (taken s) (concat (l_out (c_out c))) (concat (l_out (c_out s))).
Definition has_ended (r : res unit) : bool := match r with Ok _ | Err _ => true | _ => false end.
Definition round_ends (E : env) (n : net) : bool := has_ended (snd (call_of E (delivery (n_client n) (n_down n)))) && has_ended (snd (call_of E (delivery (n_server n) (n_up n)))).
Lemma ends_round E n : round_ends E n = true -> round toy_plain toy_plain E n (next_round E n).
Proof.
  intros H. apply andb_true_iff in H. destruct H as [A B].
  assert (forall c, has_ended (snd (call_of E c)) = true -> called toy_plain E 9 (plain_oracles nine) c (fst (call_of E c))) as K.
  { intros c H. split; [apply plain_oracles_ok|]. exists (snd (call_of E c)). split; [apply surjective_pairing|]. left. destruct (snd (call_of E c)); try discriminate; exact I. }
  do 4 eexists. do 2 eexists. split; [exact (K _ A)|]. split; [exact (K _ B)|]. reflexivity.
Qed.
Fixpoint nets (E : env) (n : net) (i : nat) : net := match i with O => n | Datatypes.S i => next_round E (nets E n i) end.
(** All of the first [k] rounds end. *)
Fixpoint rounds_end_b (E : env) (n : net) (k : nat) : bool := match k with O => c_complete (n_client n) && c_complete (n_server n) | Datatypes.S k => round_ends E n && rounds_end_b E (next_round E n) k end.
Lemma nets_shift E n i : nets E (next_round E n) i = next_round E (nets E n i).
Proof. induction i as [|i IH]; [reflexivity|]. cbn [nets]. now rewrite IH. Qed.
Lemma complete_ends E n : both n -> round_ends E n = true.
Proof. intros [A B]. unfold round_ends, call_of, handshake. rewrite !complete_delivery, A, B. reflexivity. Qed.
Lemma nets_rounds E k : forall n, rounds_end_b E n k = true -> forall i, round toy_plain toy_plain E (nets E n i) (nets E n (Datatypes.S i)).
Proof.
  assert (forall n, both n -> forall i, both (nets E n i)) as St.
  { intros n B i. induction i as [|i IH]; [exact B|]. cbn [nets]. exact (both_stays toy_plain toy_plain E _ _ IH (ends_round E _ (complete_ends E _ IH))). }
  induction k as [|k IH]; intros n H i; cbn [rounds_end_b] in H; apply andb_true_iff in H.
  - cbn [nets]. apply ends_round, complete_ends, St. exact H.
  - destruct H as [A B]. destruct i as [|i]; [exact (ends_round E n A)|]. pose proof (IH _ B i) as R. cbn [nets] in R |- *. rewrite !nets_shift in R. exact R.
Qed.
(** Nine rounds take two new ends to the end of their handshakes, and seven do not. *)
Example C69_example :
  let E := ec_env P256 in let cfg := ec_config [toy_cert] [] in
  joint_ok toy_plain toy_plain E cfg cfg [] [] /\ compatible toy_plain toy_plain E cfg cfg [] /\
  exists f, play toy_plain toy_plain E cfg cfg [] [] [] [] (mkTr [] [] [] []) (f 0%nat) /\ (forall i, round toy_plain toy_plain E (f i) (f (Datatypes.S i))) /\
    c_complete (n_client (f 7%nat)) && c_complete (n_server (f 7%nat)) = false.
Proof.
  cbv zeta. split; [apply ec_joint|]. split.
  - apply (ec_compatible P256 0x0403 SHA256 [] [0x0804; 0x0805; 0x0806] [0x0503; 0x0603]); [constructor|reflexivity| |repeat constructor|apply Nat.leb_le; reflexivity].
    repeat constructor; intros [Z|[Z|[Z|[]]]]; discriminate Z.
  - exists (nets (ec_env P256) (fresh_net (ec_config [toy_cert] []))). split; [constructor|]. split; [apply (nets_rounds _ 9); nf|nf].
Qed.
