(** Properties C37 and C38 of the two ends of a connection: what they export and store is the same. *)
From Verif Require Import Base Frame Record Handshake Crypto CryptoSpec PropCrypto Messages Pki Negotiation Machine Conn ConnSpec ConnProofs RunSpec RunProofs SessionSpec Toy PropTrace PropConn PropSession PropServer AgreeSpec AgreeProofs PropAgree PropExporter PropChannel PropTicket.

Lemma ends_sessions Qc Qs Ec Es ccfg scfg cpsks spsks c s : two_ends Qc Qs Ec Es ccfg scfg cpsks spsks c s ->
  exists k k', same_session k (c_state c) /\ same_session k' (c_state s) /\ AgreeSpec.agree (v_prims Ec) k k'.
Proof.
  intros [A1 A2 A3 A4 A5 A6 A7 A8 A9 A10 (cin & sin & cevs & sevs & B1 & B2 & B3 & B4) A12 A13].
  exact (C35_agree _ _ _ _ _ _ _ _ _ _ _ _ _ _ A1 A2 A3 A4 A5 A6 A7 A8 A9 A10 B1 A12 B2 A13 B3 B4).
Qed.
Lemma ends_same Qc Qs Ec Es ccfg scfg cpsks spsks c s : two_ends Qc Qs Ec Es ccfg scfg cpsks spsks c s ->
  sc_suite (c_state s) = sc_suite (c_state c) /\ sc_resumption (c_state s) = sc_resumption (c_state c) /\ sc_exporter (c_state s) = sc_exporter (c_state c) /\
  p_nextProto (sc_params (c_state s)) = p_nextProto (sc_params (c_state c)).
Proof.
  intros T. destruct (ends_sessions _ _ _ _ _ _ _ _ _ _ T) as (k & k' & (K1 & _ & K2 & K3 & K4 & _) & (L1 & _ & L2 & L3 & L4 & _) & (early & dhe & t1 & t2 & (_ & _ & S1 & S2) & (_ & _ & S3 & S4)) & U & _ & _ & _ & _ & N & _).
  repeat split; congruence.
Qed.
Lemma ends_client Qc Qs Ec Es ccfg scfg cpsks spsks c s : two_ends Qc Qs Ec Es ccfg scfg cpsks spsks c s -> is_connected c = true /\ is_connected s = true /\ (cf_useDTLS ccfg = false -> receiver c).
Proof.
  intros [A1 A2 A3 A4 A5 A6 A7 A8 A9 A10 (cin & sin & cevs & sevs & B1 & B2 & B3 & B4) A12 A13].
  apply steady_used in B1, B2. pose proof (inv_used _ _ _ _ _ _ B1) as I1. pose proof (inv_used _ _ _ _ _ _ B2) as I2.
  pose proof (inv_complete _ _ _ I1) as C1. pose proof (inv_complete _ _ _ I2) as C2. split; [congruence|]. split; [congruence|]. intros D.
  pose proof (inv_cfg _ _ _ I1) as G. assert (started c = true) as St. { unfold started. rewrite A12 in C1. unfold is_connected in C1. destruct (c_hState c); [reflexivity|discriminate]. }
  rewrite St in G. cbn [cfg_now] in G. split; [exact (inv_role _ _ _ I1)|]. split; [exact (inv_connected _ _ _ I1 A12)|].
  destruct G as [->|[(_ & x & ->)|(Z & _)]]; [| |discriminate]; (split; [exact D|]); cbn; destruct (cf_psks ccfg); discriminate.
Qed.

(** ** C38 *)

(** Both ends export the same. *)
Lemma ends_export Qc Qs Ec Es ccfg scfg cpsks spsks c s label context n : two_ends Qc Qs Ec Es ccfg scfg cpsks spsks c s ->
  computeExporter Es s label context n = computeExporter Ec c label context n.
Proof.
  intros T. destruct (ends_same _ _ _ _ _ _ _ _ _ _ T) as (A & _ & B & _). destruct (ends_client _ _ _ _ _ _ _ _ _ _ T) as (C1 & C2 & _). pose proof (te_prims _ _ _ _ _ _ _ _ _ _ T) as P.
  unfold computeExporter. rewrite A, B, C1, C2, P. reflexivity.
Qed.
Theorem C38_ends : forall Qc Qs Ec Es ccfg scfg cpsks spsks c s label context n, two_ends Qc Qs Ec Es ccfg scfg cpsks spsks c s ->
  computeExporter Es s label context n = computeExporter Ec c label context n.
Proof. exact ends_export. Qed.
Print Assumptions C38_ends.

(** ** C37 *)

(** A ticket that a server issues for its session (at any time, with any random values) and that the client of the
    connection receives: both store the same PSK. *)
Lemma ends_ticket Qc Qs E ccfg scfg cpsks spsks c s o s0 s1 w acts : two_ends Qc Qs E E ccfg scfg cpsks spsks c s -> cf_useDTLS ccfg = false ->
  c_isClient s0 = false -> hl_datagram (x_out (c_ctx s0)) = false -> cf_sendSessionTickets (c_cfg s0) = true ->
  newTicket (v_prims E) o (c_world s0) (c_state s) = (w, Ok acts) -> on_connected E o s0 (c_state s) = (s1, Ok tt) ->
  exists p m, In (QueueHandshakeMessage m) acts /\ cache_get (w_psks (c_world s1)) (hexEncode (psk_identity p)) = Some p /\
    forall oc n, exists c' q, post_messages E (S n) oc c (hm_marshal m) = (c', Ok tt) /\ cache_get (w_psks (c_world c')) (cf_serverName (c_cfg c)) = Some q /\ same_psk p q.
Proof.
  intros T D S1 S2 S3 N O. destruct (ends_same _ _ _ _ _ _ _ _ _ _ T) as (A & B & _ & C). destruct (ends_client _ _ _ _ _ _ _ _ _ _ T) as (_ & _ & R). specialize (R D).
  destruct (C37_agree E o s0 (c_state s) s1 w acts (te_sized _ _ _ _ _ _ _ _ _ _ T) S1 S2 S3 N O) as (p & m & I & G & _ & _ & _ & _ & K). exists p, m. split; [exact I|]. split; [exact G|].
  intros oc n. destruct (K c oc n R) as (c' & q & Q1 & Q2 & _ & Q3); [now repeat split|]. exists c', q. auto.
Qed.
Theorem C37_ends : forall Qc Qs E ccfg scfg cpsks spsks c s o s0 s1 w acts, two_ends Qc Qs E E ccfg scfg cpsks spsks c s -> cf_useDTLS ccfg = false ->
  c_isClient s0 = false -> hl_datagram (x_out (c_ctx s0)) = false -> cf_sendSessionTickets (c_cfg s0) = true ->
  newTicket (v_prims E) o (c_world s0) (c_state s) = (w, Ok acts) -> on_connected E o s0 (c_state s) = (s1, Ok tt) ->
  exists p m, In (QueueHandshakeMessage m) acts /\ cache_get (w_psks (c_world s1)) (hexEncode (psk_identity p)) = Some p /\
    forall oc n, exists c' q, post_messages E (S n) oc c (hm_marshal m) = (c', Ok tt) /\ cache_get (w_psks (c_world c')) (cf_serverName (c_cfg c)) = Some q /\ same_psk p q.
Proof. exact ends_ticket. Qed.
Print Assumptions C37_ends.

(** The two ends of a run with tickets. *)
Definition ends_config : config :=
  mkCfg toy_name true 100 16 50 false false None None None false None None false [toy_cert] None [] [P256] [] [] (Some 1) [] true false None.
Definition ends_run := joint 12 1 (pair_of ends_config ends_config [] []).
Definition ends_events := joint_events 12 1 (pair_of ends_config ends_config [] []).
Lemma ends_fine : forallb (fun r => fineb (fst r) && fineb (snd r)) (snd (joint 12 1 (pair_of ends_config ends_config [] []))) = true.
Proof. vm_compute. reflexivity. Qed.
Lemma ends_steady : steady toy_like toy_env (newConn ends_config [] true []) (fst ends_events) (fst (fst ends_run)) /\ steady toy_like toy_env (newConn ends_config [] false []) (snd ends_events) (snd (fst ends_run)).
Proof. unfold ends_events, ends_run. exact (steady_pair 12 1 ends_config ends_config [] [] ends_fine). Qed.
Lemma ends_delivered : delivered (sent (fst ends_events)) (received (snd ends_events)) /\ delivered (sent (snd ends_events)) (received (fst ends_events)).
Proof. split; apply deliveredb_ok; vm_compute; reflexivity. Qed.
Lemma ends_shared : shared_psk ends_config ends_config [] [].
Proof. intros key key' H. discriminate H. Qed.
Example C38_example_ends : two_ends toy_like toy_like toy_env toy_env ends_config ends_config [] [] (fst (fst ends_run)) (snd (fst ends_run)).
Proof.
  split; [reflexivity|exact toy_prims_sized|exact toy_curves|exact ends_shared|exact toy_inverts|reflexivity|reflexivity|reflexivity|exact toy_groups|reflexivity| |nf|nf].
  exists [], [], (fst ends_events), (snd ends_events). exact (conj (proj1 ends_steady) (conj (proj2 ends_steady) ends_delivered)).
Qed.
(** The server's ticket, and another one. *)
Example C37_example_ends : exists w acts s1,
  newTicket (v_prims toy_env) (toy_oracle 7) (c_world (snd (fst ends_run))) (c_state (snd (fst ends_run))) = (w, Ok acts) /\ on_connected toy_env (toy_oracle 7) (snd (fst ends_run)) (c_state (snd (fst ends_run))) = (s1, Ok tt).
Proof. edestruct (ticket_case toy_env (toy_oracle 7) (snd (fst ends_run)) (c_state (snd (fst ends_run)))) as (s1 & w & acts & _ & _ & _ & A & B); [nf|nf|nf|nf|nf|]. exists w, acts, s1. split; assumption. Qed.
