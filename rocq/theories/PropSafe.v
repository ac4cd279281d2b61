(** Property C70: between two ends that suit each other, no call of [Handshake] crashes, whatever calls were made at both, however the byte streams are cut, and whatever the random values are. *)
From Verif Require Import Base Record Handshake Crypto Messages Machine Conn ConnSpec RunSpec Toy PropTrace AgreeSpec ChannelSpec PropChannel JointSpec CompleteSpec CrashSpec PlaySpec SafeSpec CompleteProofs CompleteJoint PropComplete.

Lemma steady_free {A} (p : conn * res A) c' : steady p -> p = (c', Panic) -> worn_out (c_in c') \/ worn_out (c_out c').
Proof. intros H ->. exact H. Qed.
Lemma play_crash_free Qc Qs E ccfg scfg cpsks spsks ce se t n : joint_ok Qc Qs E ccfg scfg cpsks spsks -> compatible Qc Qs E ccfg scfg cpsks ->
  play Qc Qs E ccfg scfg cpsks spsks ce se t n -> crash_free Qc E (n_client n) /\ crash_free Qs E (n_server n).
Proof.
  intros ok cp H. apply (play_session _ _ _ _ _ _ _ ok cp) in H. split; intros fuel os c' Qo; apply steady_free.
  - apply (client_steady Qc Qs E ccfg scfg cpsks spsks ok cp _ _ _ _ fuel os H Qo).
  - apply (server_steady Qc Qs E ccfg scfg cpsks spsks ok cp _ _ _ _ fuel os H Qo).
Qed.

(** C70 *)
Theorem C70_no_crash : forall Qc Qs E ccfg scfg cpsks spsks ce se t n, joint_ok Qc Qs E ccfg scfg cpsks spsks -> compatible Qc Qs E ccfg scfg cpsks ->
  play Qc Qs E ccfg scfg cpsks spsks ce se t n -> crash_free Qc E (n_client n) /\ crash_free Qs E (n_server n).
Proof. exact play_crash_free. Qed.
Print Assumptions C70_no_crash.

(** Two ends in the middle of a handshake, after the server's flight: the conditions hold, and the client's next call comes back without an error. *)
Definition flying : net := match moves (ec_env P256) (firstn 6 plain_moves) (fresh_net (ec_config [toy_cert] [])) with Some n => n | None => fresh_net (ec_config [toy_cert] []) end.
Definition in_middle (n : net) : bool := negb (c_complete (n_client n)) && negb (c_complete (n_server n)) && match c_hState (n_client n), c_hState (n_server n) with Some (CWaitSH _), Some (SWaitFlight2 _) | Some (CWaitSH _), Some (SWaitFinished _ _) => true | _, _ => false end.
Example C70_example :
  let E := ec_env P256 in let cfg := ec_config [toy_cert] [] in
  joint_ok toy_plain toy_plain E cfg cfg [] [] /\ compatible toy_plain toy_plain E cfg cfg [] /\
  exists ce se t n, play toy_plain toy_plain E cfg cfg [] [] ce se t n /\ in_middle n = true /\ snd (handshake E 12 (plain_oracles [1; 2; 3; 4; 5; 6; 7; 8; 9; 10; 11; 12]) (n_client n)) = Ok tt.
Proof.
  cbv zeta. destruct C67_example as (A & B & _). split; [exact A|]. split; [exact B|].
  destruct (moves (ec_env P256) (firstn 6 plain_moves) (fresh_net (ec_config [toy_cert] []))) as [n|] eqn:M.
  - destruct (moves_play _ _ _ _ _ _ _ _ _ _ n (pl_new _ _ (ec_env P256) (ec_config [toy_cert] []) (ec_config [toy_cert] []) [] []) M) as (ce & se & t & Pl). exists ce, se, t, n. split; [exact Pl|].
    assert (n = flying) as -> by (unfold flying; now rewrite M). split; nf.
  - exfalso. revert M. assert (match moves (ec_env P256) (firstn 6 plain_moves) (fresh_net (ec_config [toy_cert] [])) with Some _ => true | None => false end = true) as K by nf. intros M. rewrite M in K. discriminate K.
Qed.
