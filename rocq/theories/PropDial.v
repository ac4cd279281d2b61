(** Dialling and listening (C66). *)
From Verif Require Import Base Frame Record Handshake Crypto CryptoSpec Messages Pki Negotiation Machine Client Server MachineProofs CtxProofs StepProofs Conn ConnSpec ConnProofs RunSpec RunProofs SigSpec SessionSpec Toy PropTrace PropCrypto PropSession Dial.

(** ** Specification *)

(** The host of an address: all before its last colon, or all of it if there is none. *)
Inductive host_of (addr : bytes) : bytes -> Prop :=
| host_port host port : addr = host ++ x3a :: port -> ~ In x3a port -> host_of addr host
| host_only : ~ In x3a addr -> host_of addr addr.
(** The configuration of a dialled connection: the caller's, with the name of the host if it has none, over datagrams
    if the network is udp. *)
Definition dialled (network addr : bytes) (cfg d : config) : Prop :=
  (cf_serverName cfg <> [] -> cf_serverName d = cf_serverName cfg) /\ (cf_serverName cfg = [] -> host_of addr (cf_serverName d)) /\
  (cf_useDTLS d = true <-> network = str "udp") /\
  exists name dg rl, mkCfg name (cf_sendSessionTickets cfg) (cf_ticketLifetime cfg) (cf_ticketLen cfg) (cf_earlyDataLifetime cfg)
    (cf_allowEarlyData cfg) (cf_requireCookie cfg) (cf_cookieHandler cfg) (cf_cookieProtector cfg) (cf_extensionHandler cfg)
    (cf_requireClientAuth cfg) (cf_time cfg) (cf_rootCAs cfg) (cf_insecureSkipVerify cfg) (cf_certificates cfg)
    (cf_verifyPeerCertificate cfg) (cf_cipherSuites cfg) (cf_groups cfg) (cf_signatureSchemes cfg) (cf_nextProtos cfg) (cf_psks cfg) (cf_pskModes cfg)
    (cf_nonBlocking cfg) dg rl = d.
(** Every round but the last one ended because the call waits for input. *)
Fixpoint patient (Q : oracle -> Prop) (E : env) (rounds : list round) (c : conn) : Prop :=
  match rounds with
  | [] => True
  | (fuel, os, data) :: rounds =>
      Forall Q os /\
      match handshake E fuel os (arrives c data) with
      | (c', Fuel) => blocked E fuel os (arrives c data) /\ patient Q E rounds c'
      | _ => True
      end
  end.

(** ** Proofs *)

Lemma colon_some addr : match lastColon addr with Some i => exists port, addr = firstn i addr ++ x3a :: port /\ ~ In x3a port | None => ~ In x3a addr end.
Proof.
  induction addr as [|b addr IH]; [intros []|]. cbn [lastColon]. destruct (lastColon addr) as [i|].
  - destruct IH as (port & IH & N). exists port. split; [cbn; now f_equal|exact N].
  - destruct (Byte.eqb b x3a) eqn:Eb; [apply Byte.byte_dec_bl in Eb; subst; now exists addr|].
    intros [->|H]; [discriminate|auto].
Qed.
Lemma hostname_spec addr : host_of addr (hostname addr).
Proof.
  unfold hostname. pose proof (colon_some addr) as H. destruct (lastColon addr) as [i|]; [|now constructor].
  destruct H as (port & H & N). now apply host_port with port.
Qed.
Lemma config_spec network addr cfg : dialled network addr (match cfg with Some c => c | None => zero_config end) (dialConfig network addr cfg).
Proof.
  unfold dialConfig. set (c := match cfg with None => zero_config | Some c => cfg_clone c end). set (c0 := match cfg with Some c => c | None => zero_config end).
  assert (En : cf_serverName c = cf_serverName c0) by (destruct cfg; reflexivity).
  assert (Ed : forall c', cf_useDTLS (set_useDTLS c' (beqb network (str "udp"))) = true <-> network = str "udp") by (intros; cbn; apply beqb_eq).
  rewrite En. destruct (cf_serverName c0) as [|b n] eqn:E0.
  - split; [rewrite E0; intros []; reflexivity|]. split; [intros _; apply hostname_spec|]. split; [apply Ed|]. eexists _, _, _. destruct cfg; reflexivity.
  - split; [intros _; cbn; now rewrite En|]. split; [rewrite E0; discriminate|]. split; [apply Ed|]. eexists _, _, _. destruct cfg; reflexivity.
Qed.
Lemma config_blocking network addr cfg : cf_nonBlocking (dialConfig network addr cfg) = match cfg with Some c => cf_nonBlocking c | None => false end.
Proof. unfold dialConfig. destruct cfg as [c|]; [|reflexivity]. cbn. destruct (cf_serverName c); reflexivity. Qed.

Lemma inv_blocking cfg client c : inv cfg client c -> cf_nonBlocking (c_cfg c) = cf_nonBlocking cfg.
Proof.
  intros H. pose proof (inv_cfg _ _ _ H) as G. unfold cfg_now in G. destruct (started c).
  - destruct G as [->|[(_ & s & ->)|(_ & _ & _ & _ & p & ->)]]; reflexivity.
  - destruct G as [->| ->]; reflexivity.
Qed.
Lemma loop_done E fuel cfg client os : cf_nonBlocking cfg = false -> forall c s c' u, inv cfg client c -> c_hState c = Some s ->
  handshake_loop E fuel os c s = (c', Ok u) -> c_complete c' = true.
Proof.
  intros Nb. induction os as [|o os IH]; intros c s c' u H S T.
  - destruct s; try discriminate. injection T as <- _. rewrite (inv_complete _ _ _ H). unfold is_connected. now rewrite S.
  - destruct (not_connected_cases s) as [Nc|[k ->]].
    2: { injection T as <- _. rewrite (inv_complete _ _ _ H). unfold is_connected. now rewrite S. }
    assert (T' : (call c, '(s, retry) <- handshake_turn E fuel o c s;
      if cf_nonBlocking (c_cfg c) then (c, if retry : bool then alert AlertStatelessRetry else Ok tt) else handshake_loop E fuel os c s) = (c', Ok u)) by (destruct s; (exact T || contradiction)).
    clear T. inv_call T' as c1 x T1. destruct x as [s1 rt]. pose proof (inv_turn E fuel o cfg client c s H S Nc) as I1. rewrite T1 in I1. unfold all in I1; cbn [fst] in I1.
    rewrite (inv_blocking _ _ _ I1), Nb in T'. eapply IH; [exact I1|eapply turn_hstate; exact T1|exact T'].
Qed.
Lemma handshake_done E fuel cfg client os c c' u : cf_nonBlocking cfg = false -> inv cfg client c -> handshake E fuel os c = (c', Ok u) -> c_complete c' = true.
Proof.
  intros Nb H. unfold handshake. destruct (c_complete c) eqn:Cc; [intros [= <- _]; exact Cc|]. destruct (c_hState c) as [s|] eqn:S.
  - intros T. eapply loop_done; eauto.
  - destruct os as [|o os]; [discriminate|]. intros T. inv_call T as c1 u1 T1. pose proof (inv_setup E o cfg client c H S) as I1. rewrite T1 in I1. unfold all in I1; cbn [fst] in I1.
    rewrite (inv_blocking _ _ _ I1), Nb, Bool.andb_false_r in T. destruct (c_hState c1) as [s|] eqn:S1; [|discriminate]. eapply loop_done; eauto.
Qed.
Lemma wait_done Q E cfg client psks input rounds : cf_nonBlocking cfg = false -> forall c c' u evs, steady Q E (newConn cfg psks client input) evs c ->
  patient Q E rounds c -> waitHandshake E rounds c = (c', Ok u) ->
  c_complete c' = true /\ exists evs', steady Q E (newConn cfg psks client input) evs' c'.
Proof.
  intros Nb. induction rounds as [|[[fuel os] data] rounds IH]; intros c c' u evs S Pa T; [discriminate|]. cbn [patient waitHandshake] in *. destruct Pa as [Qo Pa].
  assert (S1 : steady Q E (newConn cfg psks client input) evs (arrives c data)) by (eapply steady_other; [exact S|apply ou_input]).
  destruct (handshake E fuel os (arrives c data)) as [c1 r] eqn:Hs. destruct r as [u1|e| |]; try discriminate.
  - injection T as <- _. split; [eapply handshake_done; [exact Nb| |exact Hs]; eapply inv_used, steady_used; exact S1|].
    eexists. eapply steady_handshake; [exact S1|exact Qo|exact Hs|]. left. left. now destruct u1.
  - destruct Pa as [B Pa]. eapply IH; [|exact Pa|exact T]. eapply steady_handshake; [exact S1|exact Qo|exact Hs|now right].
Qed.
Lemma wait_used E cfg client psks input rounds : cf_nonBlocking cfg = false -> forall c c' u, used E (newConn cfg psks client input) c ->
  waitHandshake E rounds c = (c', Ok u) -> used E (newConn cfg psks client input) c' /\ c_complete c' = true.
Proof.
  intros Nb. induction rounds as [|[[fuel os] data] rounds IH]; intros c c' u S T; [discriminate|]. cbn [waitHandshake] in *.
  assert (S1 : used E (newConn cfg psks client input) (arrives c data)) by (eapply used_more; [exact S|apply api_input]).
  pose proof (api_handshake E fuel os (arrives c data)) as A.
  destruct (handshake E fuel os (arrives c data)) as [c1 r] eqn:Hs. cbn [fst] in A. destruct r as [u1|e| |]; try discriminate.
  - injection T as <- _. split; [eapply used_more; eauto|eapply handshake_done; [exact Nb| |exact Hs]; eapply inv_used; exact S1].
  - eapply IH; [|exact T]. eapply used_more; eauto.
Qed.

Lemma dialled_connection E network addr cfg psks raw late rounds c : dialWithDialer E network addr cfg psks raw late rounds = Ok c ->
  let given := match cfg with Some c => c | None => zero_config end in
  exists d input, raw = Ok input /\ dialled network addr given d /\ cf_nonBlocking d = false /\ late = false /\
    waitHandshake E rounds (newConn d psks true input) = (c, Ok tt).
Proof.
  unfold dialWithDialer. destruct (match cfg with Some c => cf_nonBlocking c | None => false end) eqn:Nb; [discriminate|].
  destruct raw as [input|e| |]; try discriminate. cbn [bind]. destruct (waitHandshake _ _ _) as [c1 r] eqn:W. destruct late; [discriminate|].
  destruct r as [[]|e| |]; try discriminate. cbn [bind]. intros [= <-]. exists (dialConfig network addr cfg), input.
  split; [reflexivity|]. split; [apply config_spec|]. split; [rewrite config_blocking; exact Nb|]. split; [reflexivity|exact W].
Qed.

(** ** Theorems *)

(** A connection that [Dial] returns has a complete handshake, with the caller's configuration and the name the caller gave or else
    the host of the address (tls.go:92-179). *)
Theorem C66_dial : forall E network addr cfg psks raw late rounds c, dialWithDialer E network addr cfg psks raw late rounds = Ok c ->
  exists d input, raw = Ok input /\ dialled network addr (match cfg with Some c => c | None => zero_config end) d /\
    used E (newConn d psks true input) c /\ c_complete c = true /\ cf_serverName (c_cfg c) = cf_serverName d.
Proof.
  intros E network addr cfg psks raw late rounds c H. destruct (dialled_connection _ _ _ _ _ _ _ _ _ H) as (d & input & Hr & Hd & Nb & _ & W).
  exists d, input. destruct (wait_used E d true psks input rounds Nb _ _ _ (used_new _ _) W) as [U Cc]. split; [exact Hr|]. split; [exact Hd|]. split; [exact U|]. split; [exact Cc|].
  apply inv_used in U. pose proof (inv_cfg _ _ _ U) as G. unfold cfg_now in G. destruct (started c); [|destruct G as [->| ->]; reflexivity].
  destruct G as [->|[(_ & s & ->)|(G & _)]]; try reflexivity. discriminate.
Qed.
Print Assumptions C66_dial.

(** If the peer was not accepted for a PSK, and verification is on, the chain it sent is valid for that name, and it
    has signed the transcript with the key of its first certificate. *)
Theorem C66_authenticated : forall (Q : oracle -> Prop) E network addr cfg psks input rounds c, mac_sized (v_prims E) ->
  dial E network addr (Some cfg) psks (Ok input) rounds = Ok c -> cf_insecureSkipVerify cfg = false ->
  patient Q E rounds (newConn (dialConfig network addr (Some cfg)) psks true input) ->
  p_usingPSK (sc_params (c_state c)) = false ->
  exists name leaf rest chains o before certm cvm cv,
    (cf_serverName cfg <> [] -> name = cf_serverName cfg) /\ (cf_serverName cfg = [] -> host_of addr name) /\
    sc_peer (c_state c) = leaf :: rest /\ Q o /\
    x_chain (v_pki E) (cf_rootCAs cfg) name (match cf_time cfg with Some f => o_time o f | None => o_now o end) leaf rest = Some chains /\
    is_type certm 11 /\ is_type cvm 15 /\ safeUnmarshal cv_unmarshal (hm_body cvm) = Ok cv /\
    let s := sc_suite (c_state c) in
    valid_signature (v_prims E) (v_pki E) (cv_alg cv) leaf
      (signed_content server_context (digest (v_prims E) (s_hash s) (transcript (digest (v_prims E) (s_hash s)) (before ++ [Received certm])))) (cv_sig cv).
Proof.
  intros Q E network addr cfg psks input rounds c M H Sk Pa Np. destruct (dialled_connection _ _ _ _ _ _ _ _ _ H) as (d & input' & Hr & _).
  clear d Hr input'. unfold dial, dialWithDialer in H. destruct (cf_nonBlocking cfg) eqn:Nb; [discriminate|]. cbn [bind] in H.
  set (d := dialConfig network addr (Some cfg)) in *. destruct (waitHandshake _ _ _) as [c1 r] eqn:W. destruct r as [u|e| |]; try discriminate. cbn [bind] in H. injection H as <-.
  assert (Nd : cf_nonBlocking d = false) by (unfold d; now rewrite config_blocking).
  destruct (wait_done Q E d true psks input rounds Nd _ _ _ [] (steady_new _ _ _) Pa W) as (Cc & evs & S).
  destruct (config_spec network addr (Some cfg)) as (N1 & N2 & _ & name & dg & rl & Ed). fold d in N1, N2, Ed. cbn [cf_serverName] in N1, N2.
  destruct (authenticated Q E d psks input evs c1 M S Cc) as (before & flight & after & _ & K); [congruence|].
  destruct K as [(? & ? & ? & ? & ? & ? & ? & K & _)|[_ K]]; [congruence|].
  destruct K as (bf & certm & cvm & cert & cv & leaf & rest & _ & _ & T1 & T2 & _ & Uv & _ & Ep & (o & Qo & Ch & _) & V).
  assert (cf_insecureSkipVerify d = false) as Sd by (rewrite <- Ed; exact Sk). rewrite Sd in Ch.
  exists (cf_serverName d), leaf, rest, (sc_chains (c_state c1)), o, (before ++ bf), certm, cvm, cv.
  split; [exact N1|]. split; [exact N2|]. split; [exact Ep|]. split; [exact Qo|].
  split; [rewrite <- Ed in Ch |- *; exact Ch|]. split; [exact T1|]. split; [exact T2|]. split; [exact Uv|]. cbv zeta. rewrite <- app_assoc. exact V.
Qed.
Print Assumptions C66_authenticated.

(** A run against a server: the first round sends the ClientHello, the second takes the server's flight. *)
Definition dial_config : config :=
  mkCfg [] false 0 0 0 false false None None None false None None false [] None [] [P256] [] [] (Some 1) [] false false None.
Definition dial_addr : bytes := str "example.org:443".
Fixpoint calls (n : nat) (seed : N) (c : conn) : conn := match n with O => c | S n => calls n (seed + 10) (fst (handshake toy_env 20 (toy_oracles seed 2) c)) end.
Definition first_oracle : list oracle := [toy_oracle 1].
Definition dial_reply (network : bytes) : bytes :=
  let c := fst (handshake toy_env 20 (first_oracle) (newConn (dialConfig network dial_addr (Some dial_config)) [] true [])) in
  concat (l_out (c_out (calls 5 500 (newConn toy_config [] false [RBytes (concat (l_out (c_out c)))])))).
Definition dial_rounds (network : bytes) : list round := [(20%nat, first_oracle, []); (20%nat, toy_oracles 20 8, [RBytes (dial_reply network)])].
Definition dial_run (network : bytes) : res conn := dial toy_env network dial_addr (Some dial_config) [] (Ok []) (dial_rounds network).
Definition done (r : res conn) : bool := match r with Ok c => c_complete c && negb (p_usingPSK (sc_params (c_state c))) | _ => false end.
Lemma dial_eq E network addr cfg psks raw rounds : dial E network addr cfg psks raw rounds = dialWithDialer E network addr cfg psks raw false rounds.
Proof. reflexivity. Qed.
Lemma dial_blocking E network addr cfg psks input rounds : cf_nonBlocking cfg = false -> dial E network addr (Some cfg) psks (Ok input) rounds =
  let '(c, r) := waitHandshake E rounds (newConn (dialConfig network addr (Some cfg)) psks true input) in do _ <- r; Ok c.
Proof. intros H. unfold dial, dialWithDialer. now rewrite H. Qed.
Lemma dial_run_eq network : dial_run network = dial toy_env network dial_addr (Some dial_config) [] (Ok []) (dial_rounds network).
Proof. reflexivity. Qed.
Lemma rounds_eq network : dial_rounds network = [(20%nat, first_oracle, []); (20%nat, toy_oracles 20 8, [RBytes (dial_reply network)])].
Proof. reflexivity. Qed.
Lemma dial_done : done (dial_run (str "tcp")) = true /\ done (dial_run (str "udp4")) = true.
Proof. split; vm_compute; reflexivity. Qed.
Definition begins (network : bytes) : bool :=
  match handshakeSetup toy_env (toy_oracle 1) (arrives (newConn (dialConfig network dial_addr (Some dial_config)) [] true []) []) with
  | (c, Ok _) => match c_hState c with Some _ => true | None => false end | _ => false end.
Lemma dial_begins : begins (str "tcp") = true /\ begins (str "udp4") = true.
Proof. split; vm_compute; reflexivity. Qed.
Lemma first_round network : begins network = true -> blocked toy_env 20 first_oracle (arrives (newConn (dialConfig network dial_addr (Some dial_config)) [] true []) []).
Proof.
  unfold begins. intros H. unfold blocked. change (c_hState (arrives (newConn (dialConfig network dial_addr (Some dial_config)) [] true []) [])) with (@None hstate).
  unfold first_oracle. destruct (handshakeSetup _ _ _) as [c [u|e| |]]; try discriminate H. destruct (c_hState c); [exact I|discriminate H].
Qed.
Lemma patient_run network : begins network = true -> done (dial_run network) = true ->
  patient toy_like toy_env (dial_rounds network) (newConn (dialConfig network dial_addr (Some dial_config)) [] true []).
Proof.
  intros F D. pose proof (first_round network F) as B. rewrite dial_run_eq, dial_blocking in D by reflexivity. rewrite rounds_eq in *.
  generalize dependent (dial_reply network). intros reply D.
  set (c0 := newConn _ _ _ _) in *. clearbody c0. cbn [patient waitHandshake] in *. split; [constructor; [exact (ex_intro _ 1 eq_refl)|constructor]|].
  destruct (handshake toy_env 20 first_oracle (arrives c0 [])) as [c1 [u|e| |]]; try exact I. split; [exact B|]. split; [apply toy_oracles_like|].
  destruct (handshake toy_env 20 (toy_oracles 20 8) (arrives c1 [RBytes reply])) as [c2 [u|e| |]]; try exact I. discriminate D.
Qed.
Lemma run_cases network : begins network = true -> done (dial_run network) = true ->
  exists c, dial toy_env network dial_addr (Some dial_config) [] (Ok []) (dial_rounds network) = Ok c /\ c_complete c = true /\ p_usingPSK (sc_params (c_state c)) = false /\
  patient toy_like toy_env (dial_rounds network) (newConn (dialConfig network dial_addr (Some dial_config)) [] true []).
Proof.
  intros B D. pose proof (patient_run network B D) as Pa. rewrite dial_run_eq in D. destruct (dial _ _ _ _ _ _ _) as [c|e| |]; try discriminate D. exists c. split; [reflexivity|].
  apply andb_prop in D. destruct D as [D1 D2]. split; [exact D1|]. split; [|exact Pa]. destruct (p_usingPSK _); [discriminate D2|reflexivity].
Qed.
Example dial_example : exists c, dial toy_env (str "tcp") dial_addr (Some dial_config) [] (Ok []) (dial_rounds (str "tcp")) = Ok c /\
  mac_sized (v_prims toy_env) /\ cf_insecureSkipVerify dial_config = false /\
  patient toy_like toy_env (dial_rounds (str "tcp")) (newConn (dialConfig (str "tcp") dial_addr (Some dial_config)) [] true []) /\
  p_usingPSK (sc_params (c_state c)) = false /\ host_of dial_addr (str "example.org").
Proof.
  destruct (run_cases (str "tcp") (proj1 dial_begins) (proj1 dial_done)) as (c & H & _ & Np & Pa). exists c. split; [exact H|]. split; [exact toy_prims_sized|]. split; [reflexivity|].
  split; [exact Pa|]. split; [exact Np|exact (hostname_spec dial_addr)].
Qed.

(** "Set up DTLS as needed" (tls.go:142): not over the networks udp4 and udp6, on which the client then sends a TLS stream. *)
Theorem C66_network_refuted : exists E network addr cfg rounds c, In network [str "udp"; str "udp4"; str "udp6"] /\
  dial E network addr (Some cfg) [] (Ok []) rounds = Ok c /\ c_complete c = true /\ cf_useDTLS (c_cfg c) = false.
Proof.
  destruct (run_cases (str "udp4") (proj2 dial_begins) (proj2 dial_done)) as (c & H & Cc & _). exists toy_env, (str "udp4"), dial_addr, dial_config, (dial_rounds (str "udp4")), c.
  split; [right; left; reflexivity|]. split; [exact H|]. split; [exact Cc|]. rewrite dial_eq in H.
  destruct (C66_dial toy_env (str "udp4") dial_addr (Some dial_config) [] (Ok []) false (dial_rounds (str "udp4")) c H) as (d & input & _ & (_ & _ & Ud & _) & U & _).
  assert (Hd : cf_useDTLS d = false). { destruct (cf_useDTLS d); [|reflexivity]. exfalso. pose proof (proj1 Ud eq_refl) as K. discriminate K. }
  apply used_cfg in U. destruct U as [->|[->|[(_ & (l & Ea) & _)|(K & _)]]]; [exact Hd|exact Hd| |discriminate K]. apply (f_equal cf_useDTLS) in Ea. exact (eq_trans Ea Hd).
Qed.
Print Assumptions C66_network_refuted.

(** ** Listening *)

(** A listener that [Listen] returns has a blocking configuration with a PSK or a certificate, and what its [Accept] returns without an error
    has a complete handshake (tls.go:36-77). *)
Theorem C66_listen : forall cfg psks net l, listen cfg psks net = Ok l ->
  exists c, cfg = Some c /\ l = Some c /\ cf_nonBlocking c = false /\
    ((cf_psks c <> None /\ psks <> []) \/ exists k ks, cf_certificates c = k :: ks /\ kp_chain k <> []) /\
    forall E raw rounds conn u, accept E l psks raw rounds = (conn, Ok u) ->
      exists input s, raw = Ok input /\ conn = Some s /\ used E (newConn c psks false input) s /\ c_complete s = true.
Proof.
  intros cfg psks net l. unfold listen, newListener. destruct cfg as [c|]; [|discriminate]. destruct (validForServer c psks) eqn:V; [|discriminate]. cbn [negb].
  destruct net as [u|e| |]; try discriminate. cbn [bind]. destruct (cf_nonBlocking c) eqn:Nb; [discriminate|]. intros [= <-]. exists c.
  split; [reflexivity|]. split; [reflexivity|]. split; [exact Nb|]. split.
  - unfold validForServer in V. apply orb_prop in V as [V|V].
    + left. destruct (cf_psks c); [|discriminate]. split; [discriminate|]. destruct psks; [discriminate|discriminate].
    + right. destruct (cf_certificates c) as [|k ks]; [discriminate|]. exists k, ks. split; [reflexivity|]. destruct (kp_chain k); [discriminate|discriminate].
  - intros E raw rounds conn u1. unfold accept. destruct raw as [input|e| |]; try discriminate. destruct (waitHandshake _ _ _) as [s r] eqn:W. intros [= <- ->].
    exists input, s. split; [reflexivity|]. split; [reflexivity|]. eapply wait_used; [exact Nb|apply used_new|exact W].
Qed.
Print Assumptions C66_listen.
Definition blocking_config : config :=
  mkCfg toy_name false 0 0 0 false false None None None false None None false [toy_cert] None [] [P256] [] [] (Some 1) [] false false None.
(** The client of the example, with a server that is accepted. *)
Definition hello_bytes : bytes :=
  concat (l_out (c_out (fst (handshake toy_env 20 (toy_oracles 1 2) (newConn toy_config [] true []))))).
Definition server_reply : bytes :=
  concat (l_out (c_out (fst (handshake toy_env 20 (toy_oracles 30 4) (newConn blocking_config [] false [RBytes hello_bytes]))))).
Definition client_reply : bytes :=
  concat (l_out (c_out (calls 6 5 (arrives (taken (fst (handshake toy_env 20 (toy_oracles 1 2) (newConn toy_config [] true [])))) [RBytes server_reply])))).
Definition accepted : option conn * res unit :=
  accept toy_env (Some blocking_config) [] (Ok [RBytes hello_bytes]) [(20%nat, toy_oracles 30 4, []); (20%nat, toy_oracles 60 3, [RBytes client_reply])].
Example listen_example : listen (Some blocking_config) [] (Ok tt) = Ok (Some blocking_config) /\
  match accepted with (Some c, Ok _) => c_complete c = true | _ => False end.
Proof. split; [reflexivity|]. vm_compute. reflexivity. Qed.

(** [NewListener] does not check the configuration, so that the first [Accept] of a listener without one crashes. *)
Theorem C66_nil_refuted : exists E l psks input rounds, newListener None = Ok l /\ snd (accept E l psks (Ok input) rounds) = Panic.
Proof. exists toy_env, None, [], [], []. split; reflexivity. Qed.
Print Assumptions C66_nil_refuted.
