(** Property C43: the order of handshake messages. *)
From Verif Require Import Base Frame Record Handshake Crypto Messages Pki Negotiation Machine MachineProofs Client Server Conn ConnSpec ConnProofs RunSpec RunProofs TraceProofs Toy PropConn.

(** ** Joint runs as histories *)

(** The events of the two ends of a joint run. *)
Definition both_events (seed : N) (p : conn * conn) : list event * list event :=
  let '(a, b) := p in
  (handshake_events toy_env 20 (toy_oracles seed 2) a,
   let a := fst (handshake toy_env 20 (toy_oracles seed 2) a) in
   handshake_events toy_env 20 (toy_oracles (seed + 500) 2) (snd (transfer a b))).
Fixpoint joint_events (n : nat) (seed : N) (p : conn * conn) : list event * list event :=
  match n with
  | O => ([], [])
  | S n => let e := both_events seed p in let es := joint_events n (seed + 10) (fst (both seed p)) in (fst e ++ fst es, snd e ++ snd es)
  end.
Definition fineb (r : res unit) : bool := match r with Ok _ => true | Err (EAlert n) => (n =? 254) || (n =? 253) | _ => false end.
Lemma fineb_ok r : fineb r = true -> fine r.
Proof.
  unfold fineb, fine. destruct r as [[]|[n| |]| |]; try discriminate; auto.
  intros H. apply orb_prop in H. destruct H as [H|H]; apply N.eqb_eq in H; subst; auto.
Qed.
(** The toy oracles. *)
Definition toy_like (o : oracle) : Prop := exists seed, o = toy_oracle seed.
Lemma toy_oracles_like seed n : Forall toy_like (toy_oracles seed n).
Proof. apply Forall_forall. intros o H. apply in_map_iff in H. destruct H as (i & <- & _). now exists (seed + N.of_nat i). Qed.
Lemma steady_joint n : forall seed p a0 b0 ea eb,
  forallb (fun r => fineb (fst r) && fineb (snd r)) (snd (joint n seed p)) = true ->
  steady toy_like toy_env a0 ea (fst p) -> steady toy_like toy_env b0 eb (snd p) ->
  steady toy_like toy_env a0 (ea ++ fst (joint_events n seed p)) (fst (fst (joint n seed p))) /\
  steady toy_like toy_env b0 (eb ++ snd (joint_events n seed p)) (snd (fst (joint n seed p))).
Proof.
  induction n as [|n IH]; intros seed [a b] a0 b0 ea eb F Sa Sb.
  { cbn. rewrite !app_nil_r. split; assumption. }
  cbn [joint joint_events] in *. unfold both_events. unfold both, transfer in *. cbn [fst snd] in Sa, Sb.
  destruct (handshake toy_env 20 (toy_oracles seed 2) a) as [a1 ra] eqn:A. cbn [fst snd] in *.
  set (b1 := arrives b _) in *. destruct (handshake toy_env 20 (toy_oracles (seed + 500) 2) b1) as [b2 rb] eqn:B.
  set (a2 := arrives (taken a1) _) in *. cbn [fst snd] in *.
  specialize (IH (seed + 10) (a2, taken b2) a0 b0 (ea ++ handshake_events toy_env 20 (toy_oracles seed 2) a) (eb ++ handshake_events toy_env 20 (toy_oracles (seed + 500) 2) b1)).
  destruct (joint n (seed + 10) (a2, taken b2)) as [[a3 b3] rs] eqn:J. cbn [fst snd forallb] in *.
  apply andb_prop in F. destruct F as [F1 F2]. apply andb_prop in F1. destruct F1 as [Fa Fb].
  rewrite <- !app_assoc in IH. apply IH; [exact F2| |].
  - eapply steady_other; [eapply steady_other; [eapply steady_handshake; [exact Sa|apply toy_oracles_like|exact A|left; apply fineb_ok, Fa]|apply ou_output]|apply ou_input].
  - eapply steady_other; [eapply steady_handshake; [eapply steady_other; [exact Sb|apply ou_input]|apply toy_oracles_like|exact B|left; apply fineb_ok, Fb]|apply ou_output].
Qed.
Lemma steady_pair n seed cc sc cp sp : forallb (fun r => fineb (fst r) && fineb (snd r)) (snd (joint n seed (pair_of cc sc cp sp))) = true ->
  steady toy_like toy_env (newConn cc cp true []) (fst (joint_events n seed (pair_of cc sc cp sp))) (fst (fst (joint n seed (pair_of cc sc cp sp)))) /\
  steady toy_like toy_env (newConn sc sp false []) (snd (joint_events n seed (pair_of cc sc cp sp))) (snd (fst (joint n seed (pair_of cc sc cp sp)))).
Proof. intros F. apply (steady_joint n seed _ _ _ [] [] F); constructor. Qed.

(** ** C43 *)

(** A client's messages follow RFC 8446 appendix A.1, and its handshake is complete exactly at the end of the diagram. *)
Lemma client_order Q E cfg psks input evs c : steady Q E (newConn cfg psks true input) evs c ->
  exists p, follows client_diagram C_START evs p /\ (c_complete c = true <-> p = C_CONNECTED).
Proof.
  intros H. pose proof (steady_path _ _ _ _ _ _ _ _ H) as O. apply steady_used, inv_used in H. rewrite (inv_complete _ _ _ H).
  unfold on_path, is_connected in *. destruct (c_hState c) as [s|].
  - destruct O as (w & Pa & _). pose proof (client_follows _ _ _ _ _ _ _ _ Pa eq_refl) as [F Ok]. exists (cphase_of s). split; [exact F|].
    destruct s; cbn in *; split; intros; try discriminate; try contradiction; reflexivity.
  - destruct O as [-> _]. exists C_START. split; [constructor|split; discriminate].
Qed.
Theorem C43_client_order : forall Q E cfg psks input evs c, steady Q E (newConn cfg psks true input) evs c ->
  exists p, follows client_diagram C_START evs p /\ (c_complete c = true <-> p = C_CONNECTED).
Proof. exact client_order. Qed.
Print Assumptions C43_client_order.

(** A server's messages follow RFC 8446 appendix A.2. *)
Lemma server_order Q E cfg psks input evs c : steady Q E (newConn cfg psks false input) evs c ->
  exists p, follows server_diagram S_START evs p /\ (c_complete c = true <-> p = S_CONNECTED).
Proof.
  intros H. pose proof (steady_path _ _ _ _ _ _ _ _ H) as O. apply steady_used, inv_used in H. rewrite (inv_complete _ _ _ H).
  unfold on_path, is_connected in *. destruct (c_hState c) as [s|].
  - destruct O as (w & Pa & _). pose proof (server_follows _ _ _ _ _ _ _ _ Pa eq_refl) as [F Ok]. exists (sphase_of s). split; [exact F|].
    destruct s; cbn in *; try match type of Ok with exists k, s = _ => destruct Ok as [? ->] end; split; intros; try discriminate; try (destruct (p_usingClientAuth _); discriminate); try contradiction; reflexivity.
  - destruct O as [-> _]. exists S_START. split; [constructor|split; discriminate].
Qed.
Theorem C43_server_order : forall Q E cfg psks input evs c, steady Q E (newConn cfg psks false input) evs c ->
  exists p, follows server_diagram S_START evs p /\ (c_complete c = true <-> p = S_CONNECTED).
Proof. exact server_order. Qed.
Print Assumptions C43_server_order.

(** A message of a type that is not awaited fails the turn with an alert: unexpected_message, or decode_error if its body
    is not that of its type. Nothing is installed and the handshake is where it was. *)
Theorem C43_wrong_type : forall E fuel o c s m c' r,
  read_by fuel o (c_world c) s = [Received m] -> ~ In (bN (hm_type m)) (awaited s) -> handshake_turn E fuel o c s = (c', r) ->
  (r = Err (EAlert 10) \/ r = Err (EAlert 50)) /\ c_hState c' = c_hState c /\ c_complete c' = c_complete c /\ no_new_keys c c'.
Proof. exact turn_wrong. Qed.
Print Assumptions C43_wrong_type.

(** Two full handshakes: certificates, and a HelloRetryRequest before. *)
Definition types (evs : list event) : list (bool * N) := map (fun e => match e with Sent m => (true, bN (hm_type m)) | Received m => (false, bN (hm_type m)) end) evs.
Definition full_events := joint_events 12 1 (pair_of toy_config toy_config [] []).
Definition hrr_events := joint_events 12 1 (pair_of toy_config cookie_config [] []).
Lemma full_fine : forallb (fun r => fineb (fst r) && fineb (snd r)) (snd (joint 12 1 (pair_of toy_config toy_config [] []))) = true.
Proof. vm_compute. reflexivity. Qed.
Lemma hrr_fine : forallb (fun r => fineb (fst r) && fineb (snd r)) (snd (joint 12 1 (pair_of toy_config cookie_config [] []))) = true.
Proof. vm_compute. reflexivity. Qed.
Lemma full_steady : steady toy_like toy_env (newConn toy_config [] true []) (fst full_events) toy_client /\ steady toy_like toy_env (newConn toy_config [] false []) (snd full_events) toy_server.
Proof. unfold full_events, toy_client, toy_server, full_run. exact (steady_pair 12 1 toy_config toy_config [] [] full_fine). Qed.
Lemma hrr_steady : steady toy_like toy_env (newConn toy_config [] true []) (fst hrr_events) (fst (fst hrr_run)) /\ steady toy_like toy_env (newConn cookie_config [] false []) (snd hrr_events) (snd (fst hrr_run)).
Proof. unfold hrr_events, hrr_run. exact (steady_pair 12 1 toy_config cookie_config [] [] hrr_fine). Qed.
Example C43_example_full :
  steady toy_like toy_env (newConn toy_config [] true []) (fst full_events) toy_client /\ steady toy_like toy_env (newConn toy_config [] false []) (snd full_events) toy_server.
Proof. exact full_steady. Qed.
Example C43_example_types :
  types (fst full_events) = [(true, 1); (false, 2); (false, 8); (false, 11); (false, 15); (false, 20); (true, 20)] /\
  types (snd full_events) = [(false, 1); (true, 2); (true, 8); (true, 11); (true, 15); (true, 20); (false, 20)].
Proof. vm_compute. split; reflexivity. Qed.
Example C43_example_hrr :
  steady toy_like toy_env (newConn toy_config [] true []) (fst hrr_events) (fst (fst hrr_run)) /\ steady toy_like toy_env (newConn cookie_config [] false []) (snd hrr_events) (snd (fst hrr_run)).
Proof. exact hrr_steady. Qed.
Example C43_example_hrr_types :
  types (fst hrr_events) = [(true, 1); (false, 2); (true, 1); (false, 2); (false, 8); (false, 11); (false, 15); (false, 20); (true, 20)] /\
  types (snd hrr_events) = [(false, 1); (true, 2); (false, 1); (true, 2); (true, 8); (true, 11); (true, 15); (true, 20); (false, 20)].
Proof. vm_compute. split; reflexivity. Qed.

(** The error does not stop the handshake for good: [Conn.handshakeAlert], which would, is never set. A server that has
    failed with unexpected_message completes if it is called again. *)
Definition stray : bytes := [x16; x03; x01; x00; x08; x14; x00; x00; x04; x00; x00; x00; x00].
Definition stray_server : conn := newConn toy_config [] false [RBytes stray].
Definition failed_server : conn := fst (handshake toy_env 20 (toy_oracles 900 2) stray_server).
Theorem C43_stops_refuted : exists E cfg psks input fuel os c1 c2,
  handshake E fuel os (newConn cfg psks false input) = (c1, Err (EAlert 10)) /\ used E c1 c2 /\ c_complete c2 = true.
Proof.
  exists toy_env, toy_config, [], [RBytes stray], 20%nat, (toy_oracles 900 2), failed_server, (snd (fst (joint 12 1 (newConn toy_config [] true [], failed_server)))).
  split; [vm_compute; reflexivity|]. split; [exact (proj2 (used_joint 12 1 (newConn toy_config [] true [], failed_server)))|]. vm_compute. reflexivity.
Qed.
Print Assumptions C43_stops_refuted.
(** The hypotheses of [C43_wrong_type]: that server, reading the stray Finished. *)
Example C43_example_wrong : let c := fst (handshakeSetup toy_env (toy_oracle 900) stray_server) in
  match read_by 20 (toy_oracle 901) (c_world c) SStart with [Received m] => bN (hm_type m) = 20 /\ ~ In (bN (hm_type m)) (awaited SStart) | _ => False end.
Proof. vm_compute. split; [reflexivity|]. intros [H|[]]. discriminate. Qed.
