(** Property C68: two ends that suit each other do not come to a state in which all that was sent has arrived, neither has anything
    to do, and one of them has not completed its handshake. *)
From Verif Require Import Base Frame Record RecordSpec Handshake Crypto CryptoSpec PropCrypto Messages MessageSpec Pki SigSpec Negotiation PropNegotiation Machine Conn ConnSpec RunSpec SessionSpec Toy
  PropTrace PropAgree AgreeSpec ChannelSpec PropChannel PropServer PropEnds JointSpec JointProofs PropJoint CompleteSpec PlaySpec CompleteProofs CompleteJoint PropComplete StallProofs.

Lemma play_no_deadlock Qc Qs E ccfg scfg cpsks spsks ce se t n : joint_ok Qc Qs E ccfg scfg cpsks spsks -> compatible Qc Qs E ccfg scfg cpsks -> play Qc Qs E ccfg scfg cpsks spsks ce se t n -> at_rest Qc Qs E n ->
  c_complete (n_client n) = true /\ c_complete (n_server n) = true.
Proof. intros ok cp H R. eapply rest_complete; [exact ok|exact cp| |exact R]. eapply play_session; eauto. Qed.

Theorem C68_no_deadlock Qc Qs E ccfg scfg cpsks spsks ce se t n :
  joint_ok Qc Qs E ccfg scfg cpsks spsks -> compatible Qc Qs E ccfg scfg cpsks -> play Qc Qs E ccfg scfg cpsks spsks ce se t n ->
  at_rest Qc Qs E n -> c_complete (n_client n) = true /\ c_complete (n_server n) = true.
Proof. exact (play_no_deadlock Qc Qs E ccfg scfg cpsks spsks ce se t n). Qed.
Print Assumptions C68_no_deadlock.

Definition net_after (E : env) (ms : list move) (cfg : config) : net := match moves E ms (fresh_net cfg) with Some n => n | None => fresh_net cfg end.
Lemma after_play E ms cfg : exists ce se t, play toy_plain toy_plain E cfg cfg [] [] ce se t (net_after E ms cfg).
Proof.
  unfold net_after. destruct (moves E ms (fresh_net cfg)) as [n|] eqn:M.
  - exact (moves_play _ _ _ _ _ ms _ _ _ _ n (pl_new _ _ E cfg cfg [] []) M).
  - exists [], [], (mkTr [] [] [] []). constructor.
Qed.
Definition nine : list N := [1; 2; 3; 4; 5; 6; 7; 8; 9].
Lemma idle_call E c : handshake E 9 (plain_oracles nine) c = (c, Err (EAlert AlertWouldBlock)) -> handshake_events E 9 (plain_oracles nine) c = [] -> idle toy_plain E c.
Proof. intros A B. left. exists 9%nat, (plain_oracles nine). split; [apply plain_oracles_ok|]. auto. Qed.

(** Two ends that meet the conditions; at the end of a handshake they are at rest. On the way the client has nothing to do while its ClientHello is under way, and the server while its flight is. *)
Example C68_example :
  let E := ec_env P256 in let cfg := ec_config [toy_cert] [] in
  joint_ok toy_plain toy_plain E cfg cfg [] [] /\ compatible toy_plain toy_plain E cfg cfg [] /\
  (exists ce se t n, play toy_plain toy_plain E cfg cfg [] [] ce se t n /\ at_rest toy_plain toy_plain E n) /\
  (exists ce se t n, play toy_plain toy_plain E cfg cfg [] [] ce se t n /\ c_complete (n_client n) = false /\ idle toy_plain E (n_client n) /\ n_up n <> []) /\
  (exists ce se t n, play toy_plain toy_plain E cfg cfg [] [] ce se t n /\ c_complete (n_server n) = false /\ idle toy_plain E (n_server n) /\ n_down n <> []).
Proof.
  cbv zeta. split; [apply ec_joint|]. split; [|split; [|split]].
  - apply (ec_compatible P256 0x0403 SHA256 [] [0x0804; 0x0805; 0x0806] [0x0503; 0x0603]); [constructor|reflexivity| |repeat constructor|apply Nat.leb_le; reflexivity].
    repeat constructor; intros [Z|[Z|[Z|[]]]]; discriminate Z.
  - destruct (after_play (ec_env P256) plain_moves (ec_config [toy_cert] [])) as (ce & se & t & P). exists ce, se, t, (net_after (ec_env P256) plain_moves (ec_config [toy_cert] [])). split; [exact P|].
    split; [nf|]. split; [nf|]. split; left; nf.
  - destruct (after_play (ec_env P256) (firstn 1 plain_moves) (ec_config [toy_cert] [])) as (ce & se & t & P). exists ce, se, t, (net_after (ec_env P256) (firstn 1 plain_moves) (ec_config [toy_cert] [])). split; [exact P|].
    split; [nf|]. split; [apply idle_call; nf|]. intros H. apply (f_equal (@List.length _)) in H. revert H. vm_compute. discriminate.
  - destruct (after_play (ec_env P256) (firstn 5 plain_moves) (ec_config [toy_cert] [])) as (ce & se & t & P). exists ce, se, t, (net_after (ec_env P256) (firstn 5 plain_moves) (ec_config [toy_cert] [])). split; [exact P|].
    split; [nf|]. split; [apply idle_call; nf|]. intros H. apply (f_equal (@List.length _)) in H. revert H. vm_compute. discriminate.
Qed.

(** ** What goes wrong outside these conditions *)

(** A server that fails tells its peer nothing: an alert that is the result of a handshake state is returned by [Handshake] (conn.go:778-781) and not sent. The client waits for ever, though the transport has brought all that was sent. *)
Theorem C68_failure_not_told_refuted : exists E cfg ce se t n os c' a,
  joint_ok toy_plain toy_plain E cfg cfg [] [] /\ play toy_plain toy_plain E cfg cfg [] [] ce se t n /\
  Forall toy_plain os /\ handshake E 9 os (n_server n) = (c', Err (EAlert a)) /\ EAlert a <> WouldBlock /\
  (let n' := server_calls n c' in n_up n' = [] /\ n_down n' = [] /\ c_complete (n_client n') = false /\ idle toy_plain E (n_client n')).
Proof.
  destruct (after_play (ec_env P384) (firstn 3 plain_moves) (ec_config [toy_cert] [0x0403; 0x0503])) as (ce & se & t & P).
  set (n := net_after _ _ _) in *. exists (ec_env P384), (ec_config [toy_cert] [0x0403; 0x0503]), ce, se, t, n, (plain_oracles nine), (fst (handshake (ec_env P384) 9 (plain_oracles nine) (n_server n))), 80.
  split; [apply ec_joint|]. split; [exact P|]. split; [apply plain_oracles_ok|]. split; [|split; [discriminate|]].
  - assert (snd (handshake (ec_env P384) 9 (plain_oracles nine) (n_server n)) = Err (EAlert 80)) as Ea by nf. destruct (handshake (ec_env P384) 9 (plain_oracles nine) (n_server n)) as [c' r]. cbn [fst snd] in *. now subst.
  - cbv zeta. split; [nf|]. split; [nf|]. split; [nf|]. apply idle_call; nf.
Qed.
Print Assumptions C68_failure_not_told_refuted.

(** Without non-blocking mode: a client whose ClientHello has not arrived waits in the read of the next message. *)
Definition blocking_config : config := mkCfg toy_name true 100 16 50 false false None None None false None None false [toy_cert] None [] [P256] [] [] (Some 1) [] false false None.
Example C68_blocking_example : exists ce se t n, play toy_plain toy_plain (ec_env P256) blocking_config blocking_config [] [] ce se t n /\
  c_complete (n_client n) = false /\ idle toy_plain (ec_env P256) (n_client n) /\ n_up n <> [].
Proof.
  set (n0 := mkNet (newConn blocking_config [] true []) (newConn blocking_config [] false []) [] []).
  set (c' := fst (handshake (ec_env P256) 2 (plain_oracles [1]) (n_client n0))).
  exists (handshake_events (ec_env P256) 2 (plain_oracles [1]) (n_client n0)), [], (mkTr [] [] [] []), (client_calls n0 c'). split; [|split; [nf|split]].
  - eapply (pl_client_handshake _ _ _ _ _ _ _ [] [] _ n0 2 (plain_oracles [1]) c' (snd (handshake (ec_env P256) 2 (plain_oracles [1]) (n_client n0)))); [constructor|apply plain_oracles_ok|subst c'; apply surjective_pairing|]. right. vm_compute. exact I.
  - right. unfold stalled. change (n_client (client_calls n0 c')) with (taken c'). assert (match c_hState (taken c') with Some s => reads_message s | None => false end = true) as Rd by nf.
    destruct (c_hState (taken c')) as [s|]; [|discriminate]. exists s. split; [reflexivity|]. split; [exact Rd|]. exists (toy_oracle 1). intros fuel. unfold hr_read.
    set (x := w_ctx (c_world (taken c'))).
    assert (forall k now, readFrame_loop k now x = (x, Fuel)) as L.
    { intros k now. induction k as [|k IH]; [reflexivity|]. transitivity (readFrame_loop k now x); [|exact IH]. cbn [readFrame_loop]. generalize (readFrame_loop k) as f. clear. intros f.
      change ((0 <? needed (hl_frame (x_in x)))%nat) with true. cbv iota. assert (hl_readRecord now x = (x, Err (EAlert AlertWouldBlock))) as -> by nf. cbv beta iota. assert (hl_nonblocking (x_in x) = false) as -> by nf.
      assert (process (handshakeFraming (hl_datagram (x_in x))) (hl_frame (x_in x)) = (hl_frame (x_in x), Err (EAlert AlertWouldBlock))) as -> by nf. change (negb false && is_wb (EAlert AlertWouldBlock)) with true. cbv iota.
      reflexivity. }
    assert (forall now, readMessage fuel now x = (x, Fuel)) as Rm. { intros now. unfold readMessage. assert (checkMessageAvailable x = (x, Ok None)) as -> by nf. cbn [sbind]. now rewrite L. }
    destruct fuel as [|k]; [reflexivity|]. cbn [hr_read_loop]. now rewrite Rm.
  - intros H. apply (f_equal (@List.length _)) in H. revert H. vm_compute. discriminate.
Qed.
