(** What a server that completes has checked (properties C41, C42 and C44), and a client's retries (C46). *)
From Verif Require Import Base Syntax Frame Record RecordSpec Handshake Crypto CryptoSpec PropCrypto PropRecord Messages MessageProofs Pki SigSpec Negotiation NegotiationProofs Machine Cookie Client Server StepProofs Conn ConnSpec ConnProofs RunSpec RunProofs TraceProofs SessionProofs SessionSpec ClientRun ClientSession ServerRun ServerSession Toy PropTrace PropConn Forge PropSession.

(** ** C41 *)

Lemma client_verified Q E cfg psks input evs c : mac_sized (v_prims E) ->
  steady Q E (newConn cfg psks false input) evs c -> c_complete c = true ->
  exists before hello shm between fin ch x pr pre selected share es dh, let h := hash_of (v_prims E) (sc_suite (c_state c)) in
    evs = before ++ (Received hello :: Sent shm :: between) ++ [Received fin] /\
    is_type hello 1 /\ is_type shm 2 /\ is_type fin 20 /\
    safeUnmarshal (ch_unmarshal (hello_version cfg)) (hm_body hello) = Ok ch /\ (cf_extensionHandler cfg = None -> hello_reads (ch_exts ch) x) /\
    protects cfg pr /\ server_prefix Q cfg pr (p_suite (sc_params (c_state c))) (ch_session ch) (cx_cookie x) pre /\
    server_early_secret (v_prims E) (start_cache cfg psks) (cx_psk x) (bound_to cfg ch (cx_cookie x)) h selected es /\ p_usingPSK (sc_params (c_state c)) = is_some selected /\
    server_dhe Q (v_prims E) (cf_groups (cfg_init cfg)) (cx_shares x) h share dh /\ p_usingDH (sc_params (c_state c)) = is_some share /\
    hm_body fin = verify_data h (client_handshake_secret h es dh (pre ++ encoding [Received hello; Sent shm]))
                              (pre ++ encoding (Received hello :: Sent shm :: between)).
Proof.
  intros M S Cc. destruct (server_completed Q E cfg psks M input evs c S Cc) as (k & R & (Ep & _ & Es & _)). rewrite Ep, Es.
  destruct R as (before & hello & shm & eem & flight & sfin & early & auth & fin & ch & x & pr & pre & selected & share & es & dh & Ev & Pr & Rt & T1 & Sh & _ & _ & _ & _ & Tf & U & Rd & Cs & _ & Px & Up & Ud & Se & Sd & _ & _ & Cm & Ca & Cb & Bf & _).
  exists before, hello, shm, (flight ++ Sent sfin :: early ++ auth), fin, ch, x, pr, pre, selected, share, es, dh. cbv zeta. pose proof (proj1 Sh) as T2.
  split; [rewrite Ev; cbn [app]; rewrite <- ?app_assoc; cbn [app]; rewrite <- ?app_assoc; reflexivity|]. auto 20.
Qed.
(** A server that completes has received, at the end, a Finished with the verify data of all messages before it under the
    client's handshake secret; that secret is derived as RFC 8446 says from the PSK, the key share and the hellos. The
    transcript [pre] stands for what came before the last ClientHello. *)
Theorem C41_finished : forall Q E cfg psks input evs c, mac_sized (v_prims E) ->
  steady Q E (newConn cfg psks false input) evs c -> c_complete c = true ->
  exists before hello shm between fin ch x pr pre selected share es dh, let h := hash_of (v_prims E) (sc_suite (c_state c)) in
    evs = before ++ (Received hello :: Sent shm :: between) ++ [Received fin] /\
    is_type hello 1 /\ is_type shm 2 /\ is_type fin 20 /\
    safeUnmarshal (ch_unmarshal (hello_version cfg)) (hm_body hello) = Ok ch /\ (cf_extensionHandler cfg = None -> hello_reads (ch_exts ch) x) /\
    protects cfg pr /\ server_prefix Q cfg pr (p_suite (sc_params (c_state c))) (ch_session ch) (cx_cookie x) pre /\
    server_early_secret (v_prims E) (start_cache cfg psks) (cx_psk x) (bound_to cfg ch (cx_cookie x)) h selected es /\ p_usingPSK (sc_params (c_state c)) = is_some selected /\
    server_dhe Q (v_prims E) (cf_groups (cfg_init cfg)) (cx_shares x) h share dh /\ p_usingDH (sc_params (c_state c)) = is_some share /\
    hm_body fin = verify_data h (client_handshake_secret h es dh (pre ++ encoding [Received hello; Sent shm]))
                              (pre ++ encoding (Received hello :: Sent shm :: between)).
Proof. exact client_verified. Qed.
Print Assumptions C41_finished.

(** The whole of it: also the server's own Finished, the client's authentication, and the secrets of the session. *)
Theorem C41_session : forall Q E cfg psks, mac_sized (v_prims E) -> forall input evs c,
  steady Q E (newConn cfg psks false input) evs c -> c_complete c = true ->
  exists k, server_run Q (v_prims E) (v_pki E) cfg psks evs k /\ same_session k (c_state c).
Proof. exact server_completed. Qed.
Print Assumptions C41_session.

(** Three handshakes: with certificates, with a HelloRetryRequest before, and with a PSK and early data. *)
Example C41_example_full : mac_sized (v_prims toy_env) /\ steady toy_like toy_env (newConn toy_config [] false []) (snd full_events) toy_server /\ c_complete toy_server = true.
Proof. refine (conj toy_prims_sized (conj (proj2 full_steady) _)). vm_compute. reflexivity. Qed.
Example C41_example_hrr : mac_sized (v_prims toy_env) /\ steady toy_like toy_env (newConn cookie_config [] false []) (snd hrr_events) (snd (fst hrr_run)) /\ c_complete (snd (fst hrr_run)) = true.
Proof. refine (conj toy_prims_sized (conj (proj2 hrr_steady) _)). vm_compute. reflexivity. Qed.
Example C41_example_psk : mac_sized (v_prims toy_env) /\ steady toy_like toy_env (newConn psk_config server_psks false []) (snd psk_events) (snd (fst psk_run)) /\
  (c_complete (snd (fst psk_run)), p_usingPSK (sc_params (c_state (snd (fst psk_run))))) = (true, true).
Proof. refine (conj toy_prims_sized (conj (proj2 psk_steady) _)). vm_compute. reflexivity. Qed.

(** ** C42 *)

(** A server that requires client authentication, and a client without a certificate. *)
Definition require_config : config :=
  mkCfg toy_name false 0 0 0 false false None None None true None None false [toy_cert] None [] [P256] [] [] (Some 1) [] true false None.
Definition bare_config : config :=
  mkCfg toy_name false 0 0 0 false false None None None false None None false [] None [] [P256] [] [] (Some 1) [] true false None.
Definition bare_run := joint 12 1 (pair_of bare_config require_config [] []).
Definition bare_events := joint_events 12 1 (pair_of bare_config require_config [] []).
Lemma bare_fine : forallb (fun r => fineb (fst r) && fineb (snd r)) (snd (joint 12 1 (pair_of bare_config require_config [] []))) = true.
Proof. vm_compute. reflexivity. Qed.
Lemma bare_steady : steady toy_like toy_env (newConn require_config [] false []) (snd bare_events) (snd (fst bare_run)).
Proof. unfold bare_events, bare_run. exact (proj2 (steady_pair 12 1 bare_config require_config [] [] bare_fine)). Qed.
(** It completes: an empty Certificate is accepted (server-state-machine.go:978-995), and the rest is as without client
    authentication. *)
Theorem C42_empty_refuted : exists Q E cfg evs c, steady Q E (newConn cfg [] false []) evs c /\ c_complete c = true /\
  cf_requireClientAuth cfg = true /\ p_usingPSK (sc_params (c_state c)) = false /\ sc_peer (c_state c) = [] /\
  (forall m, In (Received m) evs -> ~ is_type m 15).
Proof.
  exists toy_like, toy_env, require_config, (snd bare_events), (snd (fst bare_run)). split; [exact bare_steady|].
  assert (map snd (filter (fun e => negb (fst e)) (types (snd bare_events))) = [1; 11; 20]) as Ty by (vm_compute; reflexivity).
  split; [vm_compute; reflexivity|]. split; [reflexivity|]. split; [vm_compute; reflexivity|]. split; [vm_compute; reflexivity|].
  intros m Hi. pose proof (received_types _ _ Hi) as I0. rewrite Ty in I0. clear Ty Hi.
  unfold is_type. intros Tm; rewrite Tm in I0; destruct I0 as [I0|[I0|[I0|[]]]]; discriminate.
Qed.
Print Assumptions C42_empty_refuted.
(** With a PSK the client is not asked (server-state-machine.go:619-623). *)
Definition require_psk_config : config :=
  mkCfg toy_name false 0 0 0 true false None None None true None None false [] None [TLS_AES_128_GCM_SHA256] [P256] [] [] (Some 1) [] true false None.
Definition unasked_run := joint 12 1 (pair_of psk_config require_psk_config client_psks server_psks).
Definition unasked_events := joint_events 12 1 (pair_of psk_config require_psk_config client_psks server_psks).
Lemma unasked_fine : forallb (fun r => fineb (fst r) && fineb (snd r)) (snd (joint 12 1 (pair_of psk_config require_psk_config client_psks server_psks))) = true.
Proof. vm_compute. reflexivity. Qed.
Lemma unasked_steady : steady toy_like toy_env (newConn require_psk_config server_psks false []) (snd unasked_events) (snd (fst unasked_run)).
Proof. unfold unasked_events, unasked_run. exact (proj2 (steady_pair 12 1 psk_config require_psk_config client_psks server_psks unasked_fine)). Qed.
Theorem C42_psk_refuted : exists Q E cfg psks evs c, steady Q E (newConn cfg psks false []) evs c /\ c_complete c = true /\
  cf_requireClientAuth cfg = true /\ (forall m, In (Received m) evs -> ~ is_type m 11 /\ ~ is_type m 15).
Proof.
  exists toy_like, toy_env, require_psk_config, server_psks, (snd unasked_events), (snd (fst unasked_run)). split; [exact unasked_steady|].
  assert (map snd (filter (fun e => negb (fst e)) (types (snd unasked_events))) = [1; 5; 20]) as Ty by (vm_compute; reflexivity).
  split; [vm_compute; reflexivity|]. split; [reflexivity|].
  intros m Hi. pose proof (received_types _ _ Hi) as I0. rewrite Ty in I0. clear Ty Hi.
  unfold is_type. split; intros Tm; rewrite Tm in I0; destruct I0 as [I0|[I0|[I0|[]]]]; discriminate.
Qed.
Print Assumptions C42_psk_refuted.

Lemma proved_possession Q E cfg psks input evs c : mac_sized (v_prims E) -> cf_requireClientAuth cfg = true ->
  steady Q E (newConn cfg psks false input) evs c -> c_complete c = true ->
  p_usingPSK (sc_params (c_state c)) = true \/
  exists before hello shm between auth fin pre, evs = before ++ (Received hello :: Sent shm :: between) ++ auth ++ [Received fin] /\
    is_type hello 1 /\ is_type shm 2 /\
    ((exists certm cert, auth = [Received certm] /\ is_type certm 11 /\ safeUnmarshal (cert_unmarshal (x_parses (v_pki E))) (hm_body certm) = Ok cert /\
        ct_list cert = [] /\ sc_peer (c_state c) = []) \/
     (exists certm cert cvm cv leaf rest, auth = [Received certm; Received cvm] /\ is_type certm 11 /\ is_type cvm 15 /\
        safeUnmarshal (cert_unmarshal (x_parses (v_pki E))) (hm_body certm) = Ok cert /\ safeUnmarshal cv_unmarshal (hm_body cvm) = Ok cv /\
        map ce_cert (ct_list cert) = leaf :: rest /\ sc_peer (c_state c) = leaf :: rest /\
        valid_signature (v_prims E) (v_pki E) (cv_alg cv) leaf
          (signed_content server_context (digest (v_prims E) (s_hash (sc_suite (c_state c))) (pre ++ encoding (Received hello :: Sent shm :: between ++ [Received certm])))) (cv_sig cv))).
Proof.
  intros M Rq S Cc. destruct (server_completed Q E cfg psks M input evs c S Cc) as (k & R & (Ep & _ & Es & _ & _ & Epeer & _)). rewrite Ep, Es, Epeer.
  destruct R as (before & hello & shm & eem & flight & sfin & early & auth & fin & ch & x & pr & pre & selected & share & es & dh & Ev & Pr & Rt & T1 & Sh & _ & _ & _ & _ & Tf & U & Rd & Cs & _ & Px & Up & Ud & Se & Sd & _ & _ & Cm & Ca & Cb & Bf & _).
  rewrite Rq, andb_true_r in Cb. destruct (p_usingPSK (sc_params k)); [left; reflexivity|right]. cbn [negb] in Cb.
  exists before, hello, shm, (flight ++ Sent sfin :: early), auth, fin, pre.
  split; [rewrite Ev; cbn [app]; rewrite <- ?app_assoc; cbn [app]; rewrite <- ?app_assoc; reflexivity|]. split; [exact T1|]. split; [exact (proj1 Sh)|].
  destruct Cm as [|certm cert A B C|certm cert cvm cv leaf rest o Qo A B C D F G V].
  - destruct Ca as [_ Ca]. rewrite Ca in Cb by reflexivity. discriminate.
  - left. exists certm, cert. auto.
  - right. exists certm, cert, cvm, cv, leaf, rest. split; [reflexivity|]. do 6 (split; [assumption || reflexivity|]).
    rewrite <- app_assoc, <- (encoding_one (Received certm)), <- encoding_app in V. cbn [app] in V. exact V.
Qed.
(** What is missing are those two cases. Otherwise the client has presented a certificate, which is that of the session,
    and proved possession of its key by a signature over the transcript. (The certificate's chain is not verified.) *)
Theorem C42_partial : forall Q E cfg psks input evs c, mac_sized (v_prims E) -> cf_requireClientAuth cfg = true ->
  steady Q E (newConn cfg psks false input) evs c -> c_complete c = true ->
  p_usingPSK (sc_params (c_state c)) = true \/
  exists before hello shm between auth fin pre, evs = before ++ (Received hello :: Sent shm :: between) ++ auth ++ [Received fin] /\
    is_type hello 1 /\ is_type shm 2 /\
    ((exists certm cert, auth = [Received certm] /\ is_type certm 11 /\ safeUnmarshal (cert_unmarshal (x_parses (v_pki E))) (hm_body certm) = Ok cert /\
        ct_list cert = [] /\ sc_peer (c_state c) = []) \/
     (exists certm cert cvm cv leaf rest, auth = [Received certm; Received cvm] /\ is_type certm 11 /\ is_type cvm 15 /\
        safeUnmarshal (cert_unmarshal (x_parses (v_pki E))) (hm_body certm) = Ok cert /\ safeUnmarshal cv_unmarshal (hm_body cvm) = Ok cv /\
        map ce_cert (ct_list cert) = leaf :: rest /\ sc_peer (c_state c) = leaf :: rest /\
        valid_signature (v_prims E) (v_pki E) (cv_alg cv) leaf
          (signed_content server_context (digest (v_prims E) (s_hash (sc_suite (c_state c))) (pre ++ encoding (Received hello :: Sent shm :: between ++ [Received certm])))) (cv_sig cv))).
Proof. exact proved_possession. Qed.
Print Assumptions C42_partial.
(** A client with a certificate. *)
Definition mutual_run := joint 12 1 (pair_of toy_config require_config [] []).
Definition mutual_events := joint_events 12 1 (pair_of toy_config require_config [] []).
Lemma mutual_fine : forallb (fun r => fineb (fst r) && fineb (snd r)) (snd (joint 12 1 (pair_of toy_config require_config [] []))) = true.
Proof. vm_compute. reflexivity. Qed.
Lemma mutual_steady : steady toy_like toy_env (newConn require_config [] false []) (snd mutual_events) (snd (fst mutual_run)).
Proof. unfold mutual_events, mutual_run. exact (proj2 (steady_pair 12 1 toy_config require_config [] [] mutual_fine)). Qed.
Example C42_example : mac_sized (v_prims toy_env) /\ cf_requireClientAuth require_config = true /\
  steady toy_like toy_env (newConn require_config [] false []) (snd mutual_events) (snd (fst mutual_run)) /\
  (c_complete (snd (fst mutual_run)), sc_peer (c_state (snd (fst mutual_run)))) = (true, [toy_name]).
Proof. refine (conj toy_prims_sized (conj eq_refl (conj mutual_steady _))). vm_compute. reflexivity. Qed.

(** ** C44 *)

(** The handler gives a cookie whenever it is asked. *)
Definition gives (Q : oracle -> Prop) (cfg : config) : Prop := forall o h, Q o -> cf_cookieHandler cfg = Some h -> o_generate o h <> Some None.

Lemma retried_events Q P cfg pr evs : retried Q P cfg pr evs -> Forall (fun e => match e with Received m => is_type m 1 | Sent m => is_type m 2 /\ is_retry m = true end) evs.
Proof. induction 1; [constructor|]. apply Forall_app. split; [assumption|]. constructor; [assumption|]. constructor; [split; assumption|constructor]. Qed.
Lemma server_from Q E cfg psks pr evs w s : server_at Q E cfg psks pr evs w s -> s <> SStart ->
  exists evs0 w0 n more, at_negotiated Q E cfg psks pr evs0 w0 n /\ evs = evs0 ++ more.
Proof.
  assert (forall evs w k more, replied Q E cfg psks pr evs w k more -> exists evs0 w0 n more, at_negotiated Q E cfg psks pr evs0 w0 n /\ evs = evs0 ++ more) as R.
  { intros e v k more (evs0 & o & w0 & w1 & n & s0 & acts & _ & A & _ & _ & -> & _). rewrite <- app_assoc. eauto 6. }
  intros A Ns. destruct s; cbn [server_at] in A; try contradiction.
  - exists evs, w. eexists _, []. rewrite app_nil_r. split; [exact A|reflexivity].
  - destruct A as [A _]. eauto.
  - destruct A as (k & _ & A & _). eauto.
  - destruct A as (more & A & _). eauto.
  - destruct A as (more & A & _). eauto.
  - destruct A as (more & certm & A & _). eauto.
  - destruct A as (more & auth & A & _). eauto.
  - destruct A as (evs0 & w0 & w1 & k & peer & fin & acts & (more & auth & A & _) & _ & _ & ->).
    destruct (R _ _ _ _ A) as (e0 & v0 & n & more0 & B & ->). rewrite <- app_assoc. eauto 6.
Qed.
Lemma cookie_echoed Q E cfg psks input evs c m : mac_sized (v_prims E) -> cf_requireCookie cfg = true -> gives Q cfg ->
  steady Q E (newConn cfg psks false input) evs c -> In (Sent m) evs -> is_retry m = false ->
  exists before hello rest ch x pr ck, evs = before ++ Received hello :: rest /\ In (Sent m) rest /\ protects cfg pr /\ retried Q (v_prims E) cfg pr before /\
    is_type hello 1 /\ safeUnmarshal (ch_unmarshal (hello_version cfg)) (hm_body hello) = Ok ch /\ (cf_extensionHandler cfg = None -> hello_reads (ch_exts ch) x) /\
    opens Q cfg pr (cx_cookie x) ck.
Proof.
  intros M Rq Gv S I Nr. apply steady_path in S. unfold on_path in S. destruct (c_hState c) as [s|]; [|destruct S as [-> _]; destruct I].
  destruct S as (w & Pa & _). apply server_path in Pa; [|reflexivity]. destruct Pa as [pr A].
  assert (s = SStart \/ s <> SStart) as [->|Ns] by (destruct s; auto; right; discriminate).
  - destruct A as [_ A]. apply retried_events in A. rewrite Forall_forall in A. specialize (A _ I). cbn in A. destruct A as [_ A]. congruence.
  - destruct (server_from _ _ _ _ _ _ _ _ A Ns) as (evs0 & w0 & n & more & B & ->). apply at_negotiated_facts in B; [|exact M].
    destruct B as (ch & x & before & -> & Pr & Rt & T & U & Rd & _ & Px & _).
    exists before, (n_hello n), more, ch, x, pr. 
    assert (In (Sent m) more) as Im.
    { apply in_app_or in I. destruct I as [I|I]; [|exact I]. apply in_app_or in I. destruct I as [I|[I|[]]]; [|discriminate].
      apply retried_events in Rt. rewrite Forall_forall in Rt. specialize (Rt _ I). cbn in Rt. destruct Rt as [_ Rt]. congruence. }
    rewrite <- app_assoc. cbn [app].
    inversion Px as [Z|o h Qo Ch G|token ck Ne O Cs Z|token ck m0 Ne O Cs Z]; subst; try congruence.
    + exfalso. exact (Gv _ _ Qo Ch G).
    + exists ck. auto 10.
Qed.
(** A server that requires a cookie sends something other than a HelloRetryRequest only after a ClientHello whose cookie
    opens under its protector and is accepted by its handler; before that it has done nothing but answer ClientHellos with
    such requests, each of which carries a sealed cookie. *)
Theorem C44_echoed : forall Q E cfg psks input evs c m, mac_sized (v_prims E) -> cf_requireCookie cfg = true -> gives Q cfg ->
  steady Q E (newConn cfg psks false input) evs c -> In (Sent m) evs -> is_retry m = false ->
  exists before hello rest ch x pr ck, evs = before ++ Received hello :: rest /\ In (Sent m) rest /\ protects cfg pr /\ retried Q (v_prims E) cfg pr before /\
    is_type hello 1 /\ safeUnmarshal (ch_unmarshal (hello_version cfg)) (hm_body hello) = Ok ch /\ (cf_extensionHandler cfg = None -> hello_reads (ch_exts ch) x) /\
    opens Q cfg pr (cx_cookie x) ck.
Proof. exact cookie_echoed. Qed.
Print Assumptions C44_echoed.

Lemma co_back c b : co_marshal c = Ok b -> cookie_of b = Ok c.
Proof.
  intros K. unfold cookie_of. assert (co_unmarshal b = Ok (c, List.length b)) as ->; [|reflexivity].
  eapply decoded_back with (to := fun c => VList [VUint (co_suite c); vbytes (co_hash c); vbytes (co_app c)]); [reflexivity| |exact K]. destruct c. back.
Qed.
Lemma opens_sealed Q cfg pr token c c' : inverts Q -> opens Q cfg pr token c -> seals Q pr c' token -> c = c'.
Proof.
  intros I (o & plain & Qo & D & C & _) (o' & plain' & Qo' & M & N). rewrite (I _ _ _ _ _ Qo' Qo N) in D. injection D as ->. apply co_back in M. congruence.
Qed.
(** What a token opens to is what was sealed in it. *)
Theorem C44_opens_sealed : forall Q cfg pr token c c', inverts Q -> opens Q cfg pr token c -> seals Q pr c' token -> c = c'.
Proof. exact opens_sealed. Qed.
Print Assumptions C44_opens_sealed.

Lemma retry_with_inj suite ses token suite' ses' token' m : retry_with suite ses token m -> retry_with suite' ses' token' m -> suite = suite' /\ token = token'.
Proof.
  intros (v & k & _ & K & H1) (v' & k' & _ & K' & H2). apply sh_back in H1, H2. rewrite H1 in H2. injection H2 as _ -> _ <-. split; [reflexivity|].
  apply cookie_back in K, K'. rewrite K in K'. congruence.
Qed.
Lemma retried_sealed Q P cfg pr evs l1 hello m l2 suite ses token : retried Q P cfg pr evs -> cf_extensionHandler cfg = None ->
  evs = l1 ++ Received hello :: Sent m :: l2 -> retry_with suite ses token m ->
  exists s app, cipherSuiteMap suite = Some s /\ seals Q pr (mkCookie suite (digest P (s_hash s) (hm_marshal hello)) app) token.
Proof.
  intros R Nh. revert l2. induction R as [|evs h0 ch0 m0 su s app tok R IH _ T1 U T2 Ir _ Cs Se Rw]; intros l2 Ev Rm; [destruct l1; discriminate|].
  destruct l2 as [|e l2 _] using rev_ind.
  - change (l1 ++ [Received hello; Sent m]) with (l1 ++ [Received hello] ++ [Sent m]) in Ev. change [Received h0; Sent m0] with ([Received h0] ++ [Sent m0]) in Ev.
    rewrite !app_assoc in Ev. apply app_inj_tail in Ev. destruct Ev as [Ev E2]. apply app_inj_tail in Ev. destruct Ev as [_ E1]. injection E1 as ->. injection E2 as ->.
    destruct (retry_with_inj _ _ _ _ _ _ _ Rm (Rw Nh)) as [-> ->]. exists s, app. auto.
  - change (Received hello :: Sent m :: l2 ++ [e]) with ((Received hello :: Sent m :: l2) ++ [e]) in Ev. change [Received h0; Sent m0] with ([Received h0] ++ [Sent m0]) in Ev.
    rewrite !app_assoc in Ev. apply app_inj_tail in Ev. destruct Ev as [Ev _].
    destruct l2 as [|e' l2 _] using rev_ind.
    + change [Received hello; Sent m] with ([Received hello] ++ [Sent m]) in Ev. rewrite app_assoc in Ev. apply app_inj_tail in Ev. destruct Ev as [_ Ev]. discriminate.
    + change (Received hello :: Sent m :: l2 ++ [e']) with ((Received hello :: Sent m :: l2) ++ [e']) in Ev. rewrite app_assoc in Ev. apply app_inj_tail in Ev.
      destruct Ev as [Ev _]. exact (IH _ Ev Rm).
Qed.
Lemma first_recovered Q E cfg psks input evs c : mac_sized (v_prims E) -> cf_requireCookie cfg = true -> gives Q cfg -> inverts Q -> cf_extensionHandler cfg = None ->
  steady Q E (newConn cfg psks false input) evs c -> c_complete c = true ->
  exists before hello between fin ch x key first retry, let h := hash_of (v_prims E) (sc_suite (c_state c)) in
    evs = before ++ (Received hello :: between) ++ [Received fin] /\ is_type hello 1 /\ safeUnmarshal (ch_unmarshal (hello_version cfg)) (hm_body hello) = Ok ch /\
    hello_reads (ch_exts ch) x /\ is_type fin 20 /\ is_retry retry = true /\
    hm_body fin = verify_data h key (synthetic first ++ hm_marshal retry ++ encoding (Received hello :: between)) /\
    forall l1 hello1 m1 l2 suite ses, before = l1 ++ Received hello1 :: Sent m1 :: l2 -> retry_with suite ses (cx_cookie x) m1 ->
      first = digest (v_prims E) (s_hash (sc_suite (c_state c))) (hm_marshal hello1).
Proof.
  intros M Rq Gv Iv Nh S Cc. destruct (server_completed Q E cfg psks M input evs c S Cc) as (k & R & (Ep & _ & Es & _)). rewrite Es.
  destruct R as (before & hello & shm & eem & flight & sfin & early & auth & fin & ch & x & pr & pre & selected & share & es & dh & Ev & Pr & Rt & T1 & Sh & _ & _ & _ & _ & Tf & U & Rd & Cs & _ & Px & Up & Ud & Se & Sd & _ & _ & Cm & Ca & Cb & Bf & _).
  inversion Px as [Z|o h Qo Ch G|token ck Ne O Ck Z|token ck m0 Ne O Ck Z T0 I0 F0 W0]; try congruence; [exfalso; exact (Gv _ _ Qo Ch G)|]; subst token; subst pre.
  eexists before, hello, (Sent shm :: flight ++ Sent sfin :: early ++ auth), fin, ch, x, _, (co_hash ck), m0. cbv zeta.
  split; [rewrite Ev; cbn [app]; rewrite <- ?app_assoc; cbn [app]; rewrite <- ?app_assoc; reflexivity|]. split; [exact T1|]. split; [exact U|]. split; [exact (Rd Nh)|]. split; [exact Tf|]. split; [exact I0|]. split.
  - rewrite app_assoc. exact Bf.
  - intros l1 hello1 m1 l2 suite ses Eb Rm. destruct (retried_sealed _ _ _ _ _ _ _ _ _ _ _ _ Rt Nh Eb Rm) as (s & app & Sm & Sl).
    pose proof (opens_sealed _ _ _ _ _ _ Iv O Sl) as Ec. subst ck. cbn [co_hash co_suite] in *. rewrite Ck, Cs in Sm. injection Sm as <-. reflexivity.
Qed.
(** In the transcript of such a server, what stands for the first ClientHello is its hash: if the token came with the answer
    [m1] to [hello1], it is the hash of [hello1], with the hash of the suite used. *)
Theorem C44_recovered : forall Q E cfg psks input evs c, mac_sized (v_prims E) -> cf_requireCookie cfg = true -> gives Q cfg -> inverts Q -> cf_extensionHandler cfg = None ->
  steady Q E (newConn cfg psks false input) evs c -> c_complete c = true ->
  exists before hello between fin ch x key first retry, let h := hash_of (v_prims E) (sc_suite (c_state c)) in
    evs = before ++ (Received hello :: between) ++ [Received fin] /\ is_type hello 1 /\ safeUnmarshal (ch_unmarshal (hello_version cfg)) (hm_body hello) = Ok ch /\
    hello_reads (ch_exts ch) x /\ is_type fin 20 /\ is_retry retry = true /\
    hm_body fin = verify_data h key (synthetic first ++ hm_marshal retry ++ encoding (Received hello :: between)) /\
    forall l1 hello1 m1 l2 suite ses, before = l1 ++ Received hello1 :: Sent m1 :: l2 -> retry_with suite ses (cx_cookie x) m1 ->
      first = digest (v_prims E) (s_hash (sc_suite (c_state c))) (hm_marshal hello1).
Proof. exact first_recovered. Qed.
Print Assumptions C44_recovered.

Lemma protector_inverts P gcm secret nonce d t : (forall key, aead_ok (gcm key)) -> List.length nonce = 32%nat ->
  newToken P gcm secret (Some nonce) d = Some t -> decodeToken P gcm secret t = Some d.
Proof.
  intros A L. unfold newToken, decodeToken. destruct (createAEAD P gcm secret nonce) as [k iv] eqn:C. intros [= <-].
  unfold cookieNonceSize. rewrite app_length, L. replace (32 + _ <? 32)%nat with false by (symmetry; apply Nat.ltb_ge; lia).
  rewrite firstn_app, firstn_all2, L by lia. cbn [Nat.sub firstn]. rewrite app_nil_r, C, skipn_app, skipn_all2, L by lia. cbn [Nat.sub skipn app].
  unfold createAEAD in C. injection C as <- _. apply A.
Qed.
(** The protector that mint provides (cookie-protector.go) inverts its tokens, if its AEAD does. *)
Theorem C44_protector : forall P gcm secret nonce d t, (forall key, aead_ok (gcm key)) -> List.length nonce = 32%nat ->
  newToken P gcm secret (Some nonce) d = Some t -> decodeToken P gcm secret t = Some d.
Proof. exact protector_inverts. Qed.
Print Assumptions C44_protector.

(** A server that asks for a cookie and gets it back; its messages; its protector; and mint's protector. *)
Lemma toy_inverts : inverts toy_like.
Proof. intros o o' pr d t [s ->] [s' ->] [= <-]. reflexivity. Qed.
Lemma toy_gives cfg : gives toy_like cfg.
Proof. intros o h [s ->] _. discriminate. Qed.
Example C44_example : mac_sized (v_prims toy_env) /\ cf_requireCookie cookie_config = true /\ gives toy_like cookie_config /\ inverts toy_like /\ cf_extensionHandler cookie_config = None /\
  steady toy_like toy_env (newConn cookie_config [] false []) (snd hrr_events) (snd (fst hrr_run)) /\ c_complete (snd (fst hrr_run)) = true.
Proof. refine (conj toy_prims_sized (conj eq_refl (conj (toy_gives _) (conj toy_inverts (conj eq_refl (conj (proj2 hrr_steady) _)))))). vm_compute. reflexivity. Qed.
Example C44_example_sent : match snd hrr_events with
  | [Received _; Sent r; Received _; Sent sh; _; _; _; _; _] => is_retry r = true /\ is_retry sh = false
  | _ => False
  end.
Proof. vm_compute. split; reflexivity. Qed.
Example C44_example_protector : (forall key, aead_ok (toy_gcm key)) /\ List.length (be 32 5) = 32%nat.
Proof. split; [intros key; apply toy_ok|reflexivity]. Qed.

(** ** C46 *)

(** A server that answers each ClientHello with a HelloRetryRequest. *)
Definition retry_body : body :=
  BServerHello (mkSh tls12Version hrrRandomSentinel [] TLS_AES_128_GCM_SHA256 0
    [mkExt etSupportedVersions (of_res (versions_server_marshal [tls13Version]) []); mkExt etCookie (of_res (cookie_marshal [x2a]) [])]).
Definition retrier (out : bytes) : list rin := let '(a, _) := forge_send (forger false) retry_body in let '(a, _) := forge_send a retry_body in forged a.
Definition sent_back : conn := answered 1 4 1 retrier (newConn toy_config [] true []).
Definition sent_back_events := solo_events 1 1 (newConn toy_config [] true []) ++ solo_events 4 301 sent_back.
Lemma sent_back_fine : forallb fineb (snd (solo 1 1 (newConn toy_config [] true []))) = true /\ forallb fineb (snd (solo 4 301 sent_back)) = true.
Proof. split; vm_compute; reflexivity. Qed.
Lemma sent_back_steady : steady toy_like toy_env (newConn toy_config [] true []) sent_back_events (fst (solo 4 301 sent_back)).
Proof. exact (steady_answered 1 4 1 retrier (newConn toy_config [] true []) (proj1 sent_back_fine) (proj2 sent_back_fine)). Qed.
(** The client accepts two: it sends a ClientHello after each. Nothing in the state that follows a HelloRetryRequest
    (client-state-machine.go:376-431) is looked at when another one arrives. *)
Definition twice_retried (evs : list event) : Prop :=
  match evs with
  | [Sent h1; Received r1; Sent h2; Received r2; Sent h3] => is_type h1 1 /\ is_retry r1 = true /\ is_type h2 1 /\ is_retry r2 = true /\ is_type h3 1
  | _ => False
  end.
Theorem C46_refuted : exists Q E cfg evs c, steady Q E (newConn cfg [] true []) evs c /\ twice_retried evs.
Proof.
  exists toy_like, toy_env, toy_config, sent_back_events, (fst (solo 4 301 sent_back)). split; [exact sent_back_steady|].
  vm_compute. repeat split.
Qed.
Print Assumptions C46_refuted.
