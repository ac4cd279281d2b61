(** The two ends in the middle of a handshake: the keys of a server that has sent its flight, and those of a client that
    has received some of it. *)
From Verif Require Import Base Syntax Frame Record Handshake Crypto CryptoSpec CryptoProofs Messages MessageProofs Pki Negotiation NegotiationProofs Machine MachineProofs Cookie Client Server StepProofs Conn RunSpec RunProofs TraceProofs SessionSpec SessionProofs HelloProofs ClientRun ClientSession ServerRun ServerSession AgreeSpec AgreeProofs.

(** ** The server's flight *)

Definition flight_types (m : hmsg) : Prop := is_type m 8 \/ is_type m 11 \/ is_type m 13 \/ is_type m 15.
Record half (Q : oracle -> Prop) (P : prims) (cfg : config) (psks : cache) (evs : list event) (k : skeys) (shs : bytes)
    (before : list event) (hello shm eem : hmsg) (fl : list hmsg) (sfin : hmsg) (pre es dh : bytes) : Prop := mkHalf {
  hf_evs : evs = before ++ [Received hello; Sent shm] ++ map Sent (eem :: fl ++ [sfin]);
  hf_types : is_type hello 1 /\ is_type shm 2 /\ is_type eem 8 /\ Forall flight_types (eem :: fl) /\ is_type sfin 20;
  hf_hello : exists ch x pr selected share, retried Q P cfg pr before /\ server_hello cfg (ch_session ch) (p_suite (sk_params k)) selected share shm /\
    safeUnmarshal (ch_unmarshal (hello_version cfg)) (hm_body hello) = Ok ch /\ (cf_extensionHandler cfg = None -> hello_reads (ch_exts ch) x) /\
    In (p_suite (sk_params k)) (ch_suites ch) /\ server_prefix Q cfg pr (p_suite (sk_params k)) (ch_session ch) (cx_cookie x) pre /\
    server_early_secret P (start_cache cfg psks) (cx_psk x) (bound_to cfg ch (cx_cookie x)) (hash_of P (sk_suite k)) selected es /\
    server_dhe Q P (cf_groups (cfg_init cfg)) (cx_shares x) (hash_of P (sk_suite k)) share dh;
  hf_plain : cf_extensionHandler cfg = None -> forall sh n, sh_unmarshal (hm_body shm) = Ok (sh, n) -> ext_value (sh_exts sh) 44 cookie_unmarshal = None;
  hf_ee : exists eexts proto, ee_marshal eexts = Ok (hm_body eem) /\ (cf_extensionHandler cfg = None -> accepts eexts (p_usingEarlyData (sk_params k)) proto);
  hf_suite : cipherSuiteMap (p_suite (sk_params k)) = Some (sk_suite k);
  hf_chs : sk_chs k = client_handshake_secret (hash_of P (sk_suite k)) es dh (pre ++ encoding [Received hello; Sent shm]);
  hf_shs : shs = server_handshake_secret (hash_of P (sk_suite k)) es dh (pre ++ encoding [Received hello; Sent shm]);
  hf_master : sk_master k = Master_Secret (hash_of P (sk_suite k)) (Handshake_Secret (hash_of P (sk_suite k)) es dh);
  hf_cts : sk_cts k = Derive_Secret (hash_of P (sk_suite k)) (sk_master k) "c ap traffic" (pre ++ encoding ([Received hello; Sent shm] ++ map Sent (eem :: fl ++ [sfin])));
  hf_sts : sk_sts k = Derive_Secret (hash_of P (sk_suite k)) (sk_master k) "s ap traffic" (pre ++ encoding ([Received hello; Sent shm] ++ map Sent (eem :: fl ++ [sfin])));
  hf_fin : hm_body sfin = computeFinishedData P (sk_suite k) shs (digest P (s_hash (sk_suite k)) (pre ++ encoding ([Received hello; Sent shm] ++ map Sent (eem :: fl)))) }.

Lemma no_cookie n l : server_hello_exts n = Ok l -> ext_value l 44 cookie_unmarshal = None.
Proof.
  unfold server_hello_exts. intros H. inv_bind H as l1 H1. inv_bind H as l2 H2.
  assert (ext_value l2 44 cookie_unmarshal = None) as A.
  { destruct (p_usingDH (n_params n)); [|apply Ok_inj in H2; subst l2]; others; reflexivity. }
  destruct (p_usingPSK (n_params n)); [|apply Ok_inj in H; now subst l2]. rewrite <- A. others. reflexivity.
Qed.
Lemma only_queued l : only_messages l -> l = map QueueHandshakeMessage (sent_of l).
Proof. induction 1 as [|a l [m ->] _ IH]; [reflexivity|]. cbn. now rewrite <- IH. Qed.

Section Flight.
Variables (Q : oracle -> Prop) (E : env) (cfg : config) (psks : cache) (pr : N).
Notation P := (v_prims E).
Notation X := (v_pki E).
Hypothesis sized : mac_sized P.

Lemma flight_half evs0 w0 n o w1 s acts k : at_negotiated Q E cfg psks pr evs0 w0 n -> server_negotiated P X o w0 n = (w1, Ok (s, acts, false)) -> keys_state s k ->
  exists shs before hello shm eem fl sfin pre es dh, half Q P cfg psks (evs0 ++ map Sent (sent_of acts)) k shs before hello shm eem fl sfin pre es dh /\
    evs0 = before ++ [Received hello] /\
    p_usingEarlyData (sk_params k) = p_usingEarlyData (n_params n) /\ p_rejectedEarlyData (sk_params k) = p_rejectedEarlyData (n_params n) /\
    (p_usingEarlyData (n_params n) = false -> acts = [QueueHandshakeMessage shm; RekeyOut EpochHandshakeData (makeTrafficKeys P (sk_suite k) shs)] ++
       map QueueHandshakeMessage (eem :: fl ++ [sfin]) ++
       [SendQueuedHandshake; RekeyOut EpochApplicationData (makeTrafficKeys P (sk_suite k) (sk_sts k)); RekeyIn EpochHandshakeData (makeTrafficKeys P (sk_suite k) (sk_chs k))]).
Proof.
  intros An Sn Ks.
  apply at_negotiated_facts in An; [|exact sized]. destruct An as (ch & x & before & -> & Pro & Fr & T & U & Rd & Su & Pre & Es & Dh & Nca & Sw & Ns).
  destruct (s_cfg_same _ _ _ _ Sw) as (_ & _ & Heh & Hca & _).
  apply server_negotiated_ok in Sn. destruct Sn as (random & hexts & eexts & shm & ps & w3 & w4 & eem & finm & au & ca & _ & Hx & Ts & Ms & Cm & Sn). cbv zeta in Sn.
  set (pre := omarshal (n_first n) ++ omarshal (n_hrr n)) in *.
  set (base := omarshal (n_first n) ++ omarshal (n_hrr n) ++ hm_marshal (n_hello n) ++ hm_marshal shm) in *.
  set (h := hash_of P ps).
  set (es := Early_Secret h (if p_usingPSK (n_params n) then n_pskSecret n else zero h)).
  set (dh := match n_dhSecret n with Some z => z | None => zero h end).
  rewrite secrets_rfc in Sn by exact sized.
  change (zeros ps) with (zero h) in Sn. fold dh in Sn. rewrite early_rfc in Sn. fold h in Sn. fold es in Sn.
  destruct Sn as (Hee & Te & Me & H3 & W3 & Ha & Tf & Bf & H2 & _ & Sk & Ac & Hall).
  match type of Sk with s = if _ then SWaitEOED ?kk else _ => assert (k = kk) as Ek by (eapply keys_unique; [exact Ks|exact Sk]) end.
  apply server_auth_ok in Ha. destruct Ha as (H4 & Om & Hau).
  set (to_hello := [Received (n_hello n); Sent shm]).
  assert (base = pre ++ encoding to_hello) as Eb. { unfold base, pre, to_hello, encoding. cbn [map concat]. now rewrite app_nil_r, <- !app_assoc. }
  assert (w_hash w1 = pre ++ encoding (to_hello ++ map Sent (eem :: sent_of au ++ [finm]))) as E5.
  { rewrite H2, H4, H3, Eb, !encoding_app, encoding_sent, marshals_cons, marshals_app, marshals_one, <- !app_assoc. reflexivity. }
  assert (server_hello cfg (ch_session ch) (p_suite (n_params n)) (n_selected n) (n_share n) shm) as Hsh.
  { split; [exact Ts|]. rewrite Ns in Ms. exists random, hexts. split; [exact Ms|]. intros Nh. inv_bind Hx as l0 Hx0. apply or_alert_ok in Hx0. unfold ext_send in Hx. rewrite Heh, Nh in Hx.
    apply Ok_inj in Hx. subst hexts. now apply server_hello_values. }
  assert (Forall flight_types (eem :: sent_of au)) as Tfl.
  { constructor; [left; exact Te|]. destruct (p_usingPSK (n_params n)); [destruct Hau as [_ ->]; constructor|].
    destruct Hau as (_ & crs & cert & certm & cvm & cv & -> & _ & Hcr & Tc & _ & _ & Tv & _). rewrite sent_app. apply Forall_app. split.
    - destruct (cf_requireClientAuth (w_cfg w3)); [destruct Hcr as (crm & cr & -> & Tr & _)|subst crs; constructor]. cbn [sent_of]. constructor; [right; right; left; exact Tr|constructor].
    - cbn [sent_of]. constructor; [right; left; exact Tc|]. constructor; [right; right; right; exact Tv|constructor]. }
  assert (p_suite (sk_params k) = p_suite (n_params n) /\ sk_suite k = ps /\ p_usingEarlyData (sk_params k) = p_usingEarlyData (n_params n) /\ p_rejectedEarlyData (sk_params k) = p_rejectedEarlyData (n_params n)) as (Psu & Pk & Pe & Pj).
  { rewrite Ek. cbn [sk_params sk_suite]. destruct ca; repeat split. }
  exists (server_handshake_secret h es dh base), before, (n_hello n), shm, eem, (sent_of au), finm, pre, es, dh.
  split; [|split; [reflexivity|split; [exact Pe|split; [exact Pj|]]]].
  - constructor.
    + rewrite Ac, !sent_app. destruct (p_usingEarlyData (if ca then _ else _)); cbn [sent_of app]; rewrite <- !app_assoc; cbn [app map]; rewrite ?app_nil_r; reflexivity.
    + split; [exact T|]. split; [exact Ts|]. split; [exact Te|]. split; [exact Tfl|exact Tf].
    + exists ch, x, pr, (n_selected n), (n_share n). rewrite Psu, Pk. split; [exact Fr|]. split; [exact Hsh|]. split; [exact U|]. split; [exact Rd|]. split; [exact Su|]. split; [exact Pre|]. split; [apply Es|apply Dh].
    + intros Nh sh m Um. apply sh_back in Ms. rewrite Ms in Um. apply Ok_inj in Um. apply (f_equal fst) in Um. cbn [fst] in Um. subst sh. cbn [sh_exts].
      inv_bind Hx as l0 Hx0. apply or_alert_ok in Hx0. unfold ext_send in Hx. rewrite Heh, Nh in Hx. apply Ok_inj in Hx. subst hexts. exact (no_cookie _ _ Hx0).
    + exists eexts, (p_nextProto (n_params n)). split; [exact Me|]. intros Nh. inv_bind Hee as l0 Hee0. apply or_alert_ok in Hee0. unfold ext_send in Hee. rewrite Heh, Nh in Hee.
      apply Ok_inj in Hee. subst eexts. rewrite Pe. now apply server_ee_values.
    + rewrite Psu, Pk. exact Cm.
    + rewrite Pk, Ek. fold to_hello. rewrite <- Eb. reflexivity.
    + rewrite Pk. fold to_hello. rewrite <- Eb. reflexivity.
    + rewrite Pk, Ek. reflexivity.
    + rewrite Pk. fold to_hello. rewrite <- E5, Ek. cbn [sk_cts sk_master]. unfold labelClientApplicationTrafficSecret. now rewrite derive_rfc by exact sized.
    + rewrite Pk. fold to_hello. rewrite <- E5, Ek. cbn [sk_sts sk_master]. unfold labelServerApplicationTrafficSecret. now rewrite derive_rfc by exact sized.
    + rewrite Pk, Bf. fold to_hello. do 2 f_equal. rewrite H4, H3, Eb, !encoding_app, encoding_sent, marshals_cons, <- !app_assoc. reflexivity.
  - intros Ne. rewrite Ac, Pk. rewrite <- Pe in Ne. rewrite Ek in Ne. cbn [sk_params] in Ne. rewrite Ne. rewrite (only_queued _ Om) at 1. rewrite Ek. cbn [sk_sts sk_chs].
    rewrite map_cons, map_app. cbn [app map]. rewrite <- ?app_assoc. reflexivity.
Qed.
End Flight.

(** ** Both *)

Section Ends.
Variables (Qc Qs : oracle -> Prop) (E : env) (ccfg scfg : config) (cpsks spsks : cache).
Notation P := (v_prims E).
Hypothesis no_handler_c : cf_extensionHandler ccfg = None.
Hypothesis no_handler_s : cf_extensionHandler scfg = None.
Hypothesis same_kind : cf_useDTLS ccfg = cf_useDTLS scfg.
Hypothesis groups_once : NoDup (cf_groups (cfg_init ccfg)).
Hypothesis curves : curves_agree Qc Qs P.
Hypothesis psk_shared : shared_psk ccfg scfg cpsks spsks.
Hypothesis tokens : inverts Qs.
Hypothesis tls_cookies : cf_requireCookie scfg = true -> cf_useDTLS scfg = false.

(** The values in the hellos give both the same suite and inputs. *)
Lemma hellos_agree sevs k shs before hello' shm' eem fl sfin pre es' dh' hellos cookie shares hello shm sh n s psk share es dh :
  half Qs P scfg spsks sevs k shs before hello' shm' eem fl sfin pre es' dh' ->
  client_retries ccfg cpsks hellos cookie -> offers ccfg cpsks cookie shares hello -> sh_unmarshal (hm_body shm) = Ok (sh, n) -> cipherSuiteMap (sh_suite sh) = Some s ->
  selects (sh_exts sh) psk share -> client_early P (start_cache ccfg cpsks) (cf_serverName ccfg) (hash_of P s) psk es -> client_dhe Qc P (hash_of P s) shares share dh ->
  Forall2 same_message (sent hellos) (received before) -> Forall2 same_message (sent before) (received hellos) -> same_message hello hello' -> same_message shm' shm ->
  s = sk_suite k /\ pre = transcript (digest P (s_hash s)) hellos /\ es = es' /\ dh = dh'.
Proof.
  intros Hf Cr Of Ush Cs Sel Ce Cd Sa Sb Shello Sshm. destruct (hf_hello _ _ _ _ _ _ _ _ _ _ _ _ _ _ _ _ Hf) as (ch & x & pr & sel & share' & Rt & Sh & Uc & Rd & Is & Px & Se & Sd).
  pose proof (hf_suite _ _ _ _ _ _ _ _ _ _ _ _ _ _ _ _ Hf) as Cs'.
  destruct Sh as (_ & random & sexts & Msh & Vsh). destruct (Vsh no_handler_s) as [V41 V51]. clear Vsh. rewrite (proj2 Sshm) in Msh. apply sh_back in Msh. rewrite Msh in Ush.
  apply Ok_inj in Ush. apply (f_equal fst) in Ush. cbn [fst] in Ush. subst sh. cbn [sh_suite sh_exts] in *. destruct Sel as [Upk Ushare]. rewrite V41 in Upk. rewrite V51 in Ushare. rewrite <- Ushare in Sd.
  assert (s = sk_suite k) as -> by congruence.
  specialize (Rd no_handler_s). rewrite Upk in Ce.
  split; [reflexivity|]. split; [exact (prefix_same Qs P ccfg scfg cpsks no_handler_c no_handler_s same_kind tokens tls_cookies _ _ _ _ _ _ _ _ _ _ _ _ Cr Of Rt Sa Sb Shello Uc Rd Cs' Px)|].
  rewrite <- (proj2 Shello) in Uc. destruct (early_same P ccfg scfg cpsks spsks no_handler_c same_kind psk_shared _ _ _ _ _ _ _ _ _ _ _ Of Uc Rd Is Cs' Ce Se) as [Ees Eis].
  split; [exact Ees|].
  assert (cx_shares x = shares) as Ex.
  { destruct Of as (_ & _ & ch0 & M0 & V0 & X0). rewrite (versions_same ccfg scfg same_kind) in V0. destruct (hello_decoded _ _ _ _ M0 V0 Uc) as (_ & _ & Exs). destruct (X0 no_handler_c) as (V & _).
    destruct Rd as (_ & _ & _ & _ & R & _). rewrite R, Exs. unfold value_or. now rewrite V. }
  exact (dhe_same Qc Qs P ccfg scfg groups_once curves _ _ _ _ _ _ (proj1 (proj2 Of)) Ex Cd Sd).
Qed.

(** The messages so far, up to the ServerHello: each the same at both ends. *)
Lemma hellos_align before hello' shm' hellos cookie hello shm rest rest' pr : retried Qs P scfg pr before -> is_type hello' 1 -> is_type shm' 2 ->
  client_retries ccfg cpsks hellos cookie -> is_type hello 1 -> is_type shm 2 -> Forall (fun m => ~ is_type m 2) rest -> Forall (fun m => ~ is_type m 2) rest' ->
  Forall2 same_message (sent (hellos ++ [Sent hello])) (received (before ++ [Received hello'])) ->
  Forall2 same_message (sent (before ++ [Sent shm']) ++ rest) (received (hellos ++ [Received shm]) ++ rest') ->
  Forall2 same_message (sent hellos) (received before) /\ Forall2 same_message (sent before) (received hellos) /\ same_message hello hello' /\ same_message shm' shm /\
  Forall2 same_message rest rest'.
Proof.
  intros Rt T1 T2 Cr T3 T4 N N' F1 F2. rewrite sends_app, receives_app in F1, F2. cbn [sent received flat_map app] in F1, F2. apply forall2_last in F1. destruct F1 as [F1 S1].
  destruct (retries_types _ _ _ _ Cr) as [_ Ty2]. destruct (retried_types _ _ _ _ _ Rt) as [Ty3 _].
  apply (split_types 2) in F2; [|apply Forall_app; auto..|exact N|exact N']. destruct F2 as [F2 F3]. apply forall2_last in F2. tauto.
Qed.

(** A client that has accepted a ServerHello, and the server that sent it. *)
Lemma handshake_keys sevs k shs before hello' shm' eem fl sfin pre es' dh' cevs ck m :
  half Qs P scfg spsks sevs k shs before hello' shm' eem fl sfin pre es' dh' -> accepted Qc E ccfg cpsks cevs ck ->
  Forall2 same_message (sent cevs) (received sevs) -> sent sevs = m ++ eem :: fl ++ [sfin] -> Forall2 same_message m (received cevs) ->
  ck_suite ck = sk_suite k /\ ck_chs ck = sk_chs k /\ ck_shs ck = shs /\ ck_master ck = sk_master k /\
  forall flight, Forall2 same_message (eem :: fl ++ [sfin]) flight ->
    transcript (digest P (s_hash (ck_suite ck))) (cevs ++ map Received flight) = pre ++ encoding ([Received hello'; Sent shm'] ++ map Sent (eem :: fl ++ [sfin])).
Proof.
  intros Hf (hellos & cookie & shares & hello & shm & sh & n & share & es & dh & -> & Cr & Of & Tsh & Rsh & Ush & Cs & _ & Sel & _ & Ce & Cd & K1 & K2 & K3) F1 Em F2.
  pose proof (hf_types _ _ _ _ _ _ _ _ _ _ _ _ _ _ _ _ Hf) as (T1 & T2 & T8 & Tf & T20). pose proof (hf_evs _ _ _ _ _ _ _ _ _ _ _ _ _ _ _ _ Hf) as Ev.
  destruct (hf_hello _ _ _ _ _ _ _ _ _ _ _ _ _ _ _ _ Hf) as (_ & _ & pr & _ & _ & Rt & _).
  assert (Forall (fun x => ~ is_type x 2) (eem :: fl ++ [sfin])) as N2.
  { rewrite app_comm_cons. apply Forall_app. split; [eapply Forall_impl; [|exact Tf]|constructor; [|constructor]].
    - intros y Ty Z. unfold flight_types, is_type in *. rewrite Z in Ty. destruct Ty as [Ty|[Ty|[Ty|Ty]]]; discriminate Ty.
    - unfold is_type in *. rewrite T20. discriminate. }
  assert (Forall2 same_message (sent hellos) (received before) /\ Forall2 same_message (sent before) (received hellos) /\ same_message hello hello' /\ same_message shm' shm) as (A1 & A2 & A3 & A4).
  { assert (sent sevs = sent (before ++ [Sent shm']) ++ eem :: fl ++ [sfin]) as Es.
    { rewrite Ev, !sends_app, sent_sent. cbn [sent flat_map app]. now rewrite <- !app_assoc. }
    assert (m = sent (before ++ [Sent shm'])) as Em'.
    { rewrite Es in Em. now apply app_inv_tail in Em. }
    rewrite Em' in F2.
    assert (Forall2 same_message (sent (hellos ++ [Sent hello])) (received (before ++ [Received hello']))) as G1.
    { rewrite Ev in F1. rewrite !sends_app, !receives_app, received_sent in F1. cbn [sent received flat_map app] in F1. rewrite sends_app, receives_app. exact F1. }
    assert (Forall2 same_message (sent (before ++ [Sent shm']) ++ []) (received (hellos ++ [Received shm]) ++ [])) as G2.
    { rewrite !app_nil_r. rewrite !receives_app in F2. rewrite !receives_app. exact F2. }
    destruct (hellos_align _ _ _ _ _ _ _ _ _ _ Rt T1 T2 Cr (proj1 Of) Tsh (Forall_nil _) (Forall_nil _) G1 G2) as (B1 & B2 & B3 & B4 & _). auto. }
  destruct (hellos_agree _ _ _ _ _ _ _ _ _ _ _ _ _ _ _ _ _ _ _ _ _ _ _ _ Hf Cr Of Ush Cs (Sel no_handler_c) Ce Cd A1 A2 A3 A4) as (Es & Ep & Ee & Ed). subst es' dh'.
  assert (Forall (fun m => is_retry m = false) (received [Sent hello; Received shm])) as Nr by (constructor; [exact Rsh|constructor]).
  assert (transcript (digest P (s_hash (ck_suite ck))) (hellos ++ [Sent hello; Received shm]) = pre ++ encoding [Received hello'; Sent shm']) as Tr.
  { rewrite (transcript_more _ _ _ Nr), <- Ep. f_equal. unfold encoding. cbn [map concat]. now rewrite (proj1 A3), (proj1 A4). }
  change (rh_hash (hash_of P (ck_suite ck))) with (digest P (s_hash (ck_suite ck))) in K1, K2. rewrite Tr in K1, K2. rewrite Es in K1, K2, K3.
  rewrite (hf_chs _ _ _ _ _ _ _ _ _ _ _ _ _ _ _ _ Hf), (hf_shs _ _ _ _ _ _ _ _ _ _ _ _ _ _ _ _ Hf), (hf_master _ _ _ _ _ _ _ _ _ _ _ _ _ _ _ _ Hf).
  split; [exact Es|]. split; [exact K1|]. split; [exact K2|]. split; [exact K3|].
  intros flight Ff. rewrite transcript_more.
  - rewrite Tr, (encoding_app _ (map Sent _)), <- app_assoc. f_equal. f_equal. rewrite encoding_received, encoding_sent. symmetry. now apply same_marshals.
  - rewrite received_received. assert (Forall (fun x => ~ is_type x 2) flight) as N3.
    { apply (forall2_same_types (fun t => ~ t = b8 2) _ _ Ff). exact N2. }
    eapply Forall_impl; [|exact N3]. intros y Ny. unfold is_retry. destruct (Byte.eqb (hm_type y) (b8 2)) eqn:B; [|reflexivity]. exfalso. apply Ny. unfold is_type. now apply Byte.byte_dec_bl.
Qed.
End Ends.
