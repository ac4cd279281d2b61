(** What a successful step of a state machine does. *)
From Verif Require Import Base Syntax Frame Record Timer Handshake Crypto Messages Pki Negotiation Machine Cookie Client Server MachineProofs.

(** The messages a list of actions sends. *)
Fixpoint sent_of (l : list action) : list hmsg :=
  match l with [] => [] | QueueHandshakeMessage m :: l => m :: sent_of l | _ :: l => sent_of l end.
Lemma sent_app l l' : sent_of (l ++ l') = sent_of l ++ sent_of l'.
Proof. induction l as [|[] l IH]; simpl; rewrite ?IH; reflexivity. Qed.
Definition marshals (l : list hmsg) : bytes := concat (map hm_marshal l).
Lemma marshals_app a b : marshals (a ++ b) = marshals a ++ marshals b.
Proof. unfold marshals. now rewrite map_app, concat_app. Qed.

Lemma marshals_one m : marshals [m] = hm_marshal m.
Proof. unfold marshals. cbn [map concat]. apply app_nil_r. Qed.
Lemma marshals_cons m l : marshals (m :: l) = hm_marshal m ++ marshals l.
Proof. reflexivity. Qed.

Tactic Notation "inv_call" hyp(H) "as" simple_intropattern(s) simple_intropattern(p) ident(H1) :=
  apply sbind_ok in H; destruct H as (s & p & H1 & H).
Lemma pair_ok {S A} (s s' : S) (r : res A) a : (s, r) = (s', Ok a) -> s' = s /\ r = Ok a.
Proof. intros [= -> ->]. auto. Qed.
(** A call that is a pure computation. *)
Tactic Notation "inv_pure" hyp(H) "as" simple_intropattern(p) ident(H1) :=
  let s := fresh "s" in apply sbind_ok in H; destruct H as (s & p & H1 & H); apply pair_ok in H1; destruct H1 as [-> H1]; try apply or_alert_ok in H1.

(** A message made from a body by the writing layer of [w]. *)
Definition made (w : world) (b : body) (m : hmsg) : Prop :=
  body_marshal b = Ok (hm_body m) /\ hm_type m = body_type b /\ hm_seq m = hl_msgSeq (x_out (w_ctx w)) /\
  hm_datagram m = hl_datagram (x_out (w_ctx w)) /\ hm_offset m = 0 /\ hm_length m = len (hm_body m) mod 2 ^ 32 /\ hm_cipher m = None.
Lemma make_ok w b w' m : makeMessage w b = (w', Ok m) -> made w b m /\ w_hash w' = w_hash w.
Proof.
  unfold makeMessage. destruct (body_marshal b) as [d|e| |] eqn:B; try discriminate. cbn [messageFromBody].
  intros [= <- <-]. split; [|reflexivity]. unfold made. cbn [hm_body hm_type hm_seq hm_datagram hm_offset hm_length hm_cipher]. now rewrite B.
Qed.
Lemma new_ok w b w' m : newMessage w b = (w', Ok m) -> made w b m /\ w_hash w' = w_hash w.
Proof.
  unfold newMessage. destruct (makeMessage w b) as [w1 r] eqn:M. intros [= -> H]. apply or_alert_ok in H. subst r. now apply make_ok in M.
Qed.
Lemma hr_hash fuel o w w' r : hr_read fuel o w = (w', r) -> w_hash w' = w_hash w.
Proof. unfold hr_read. destruct (hr_read_loop _ _ _ _). now intros [= <- _]. Qed.

(** ** The client *)

Definition early_secret (P : prims) (ps : suite) (key : bytes) : bytes :=
  hkdfExtract P (s_hash ps) (Some (repeat x00 (hsize (s_hash ps)))) key.
Lemma client_psk_ok P o cfg st ch key ps ch' es early : client_psk P o cfg st ch key ps = Ok (ch', es, early) ->
  es = early_secret P ps (psk_key key) /\ early = cf_allowEarlyData cfg && match st_hrr st with None => true | Some _ => false end.
Proof.
  unfold client_psk. intros H. inv_bind H as c1 H1. destruct (cf_pskModes cfg); [discriminate|].
  inv_bind H as l1 H2. inv_bind H as t H3. inv_bind H as l2 H4. apply Ok_inj in H. injection H as _ <- <-. auto.
Qed.

Lemma client_start_ok P o w st w' s acts retry : client_start P o w st = (w', Ok (s, acts, retry)) ->
  exists ws ch sending k, s = CWaitSH ws /\ retry = false /\
    acts = [QueueHandshakeMessage (ws_hello ws); SendQueuedHandshake] ++ (if sending : bool then [RekeyOut EpochEarlyData k] else []) /\
    made w (BClientHello ch) (ws_hello ws) /\
    ws_params ws = set_sending (st_params st) (st_serverName st) sending /\ ws_first ws = st_first st /\ ws_hrr ws = st_hrr st /\
    ws_serverName ws = st_serverName st /\ ws_nextProtos ws = st_nextProtos st /\
    ws_psk ws = cache_get (w_psks w) (st_serverName st) /\
    match ws_psk ws with
    | Some key => exists ps, cipherSuiteMap (psk_suite key) = Some ps /\ ws_earlySecret ws = early_secret P ps (psk_key key) /\
        k = makeTrafficKeys P ps (deriveSecret P ps (ws_earlySecret ws) labelEarlyTrafficSecret (digest P (s_hash ps) (hm_marshal (ws_hello ws)))) /\
        sending = (cf_allowEarlyData (w_cfg w) && match st_hrr st with None => true | Some _ => false end) || p_clientSendingEarlyData (st_params st)
    | None => ws_earlySecret ws = [] /\ sending = p_clientSendingEarlyData (st_params st)
    end /\
    (exists shares, client_shares P (o_keys o) 0 (cf_groups (w_cfg w)) = Ok (shares, ws_dh ws)) /\
    w_hash w' = w_hash w.
Proof.
  unfold client_start, done. intros H. inv_pure H as [shares dh] H1. destruct (o_random o) as [random|]; [|discriminate].
  inv_pure H as exts0 H2. inv_pure H as exts H3. destruct (cf_psks (w_cfg w)); [|discriminate].
  destruct (cache_get (w_psks w) (st_serverName st)) as [key|] eqn:G.
  - destruct (cipherSuiteMap (psk_suite key)) as [ps|] eqn:Gs; [|discriminate]. inv_pure H as [[ch es] early] H4.
    apply client_psk_ok in H4. destruct H4 as [-> ->].
    destruct (makeMessage w (BClientHello ch)) as [w1 r] eqn:M. inv_call H as w2 hello H5. apply pair_ok in H5. destruct H5 as [-> H5].
    assert (r = Ok hello) as -> by (destruct r; congruence). apply make_ok in M. destruct M as [M Mh].
    injection H as <- <- <- <-. eexists _, ch, _, _.
    split; [reflexivity|]. split; [reflexivity|]. cbn [ws_hello ws_params ws_first ws_hrr ws_psk ws_earlySecret ws_dh ws_serverName ws_nextProtos]. split; [reflexivity|].
    repeat (split; [solve [reflexivity|exact M]|]). split; [exists ps; auto|]. split; [exists shares; exact H1|]. exact Mh.
  - inv_call H as w1 hello M. apply new_ok in M. destruct M as [M Mh].
    injection H as <- <- <- <-. eexists _, _, _, _.
    split; [reflexivity|]. split; [reflexivity|]. cbn [ws_hello ws_params ws_first ws_hrr ws_psk ws_earlySecret ws_dh ws_serverName ws_nextProtos]. split; [reflexivity|].
    split; [exact M|]. repeat (split; [reflexivity|]). split; [auto|]. split; [exists shares; exact H1|]. exact Mh.
Qed.

(** The contents of the ClientHello. *)
Lemma client_start_hello P o w st w' ws acts retry : client_start P o w st = (w', Ok (CWaitSH ws, acts, retry)) ->
  exists shares exts0 exts random ch, client_shares P (o_keys o) 0 (cf_groups (w_cfg w)) = Ok (shares, ws_dh ws) /\
    client_extensions (w_cfg w) st shares = Ok exts0 /\ ext_send o (w_cfg w) htClientHello exts0 = Ok exts /\
    made w (BClientHello ch) (ws_hello ws) /\
    let ch0 := mkCh (wireVersion (x_in (w_ctx w))) random [] (cf_cipherSuites (w_cfg w)) exts in
    match cache_get (w_psks w) (st_serverName st) with
    | None => ch = ch0
    | Some key => exists ps es early, cipherSuiteMap (psk_suite key) = Some ps /\ client_psk P o (w_cfg w) st ch0 key ps = Ok (ch, es, early)
    end.
Proof.
  unfold client_start, done. intros H. inv_pure H as [shares dh] H1. destruct (o_random o) as [random|]; [|discriminate].
  inv_pure H as exts0 H2. inv_pure H as exts H3. destruct (cf_psks (w_cfg w)); [|discriminate].
  destruct (cache_get (w_psks w) (st_serverName st)) as [key|] eqn:G.
  - destruct (cipherSuiteMap (psk_suite key)) as [ps|] eqn:Gs; [|discriminate]. inv_pure H as [[ch es] early] H4.
    destruct (makeMessage w (BClientHello ch)) as [w1 r] eqn:M. inv_call H as w2 hello H5. apply pair_ok in H5. destruct H5 as [-> H5].
    assert (r = Ok hello) as -> by (destruct r; congruence). apply make_ok in M. destruct M as [M Mh].
    injection H as <- <- <- <-. exists shares, exts0, exts, random, ch. cbn [ws_hello ws_dh]. do 4 (split; [assumption|]). cbv zeta. exists ps, es, early. auto.
  - inv_call H as w1 hello M. apply new_ok in M. destruct M as [M Mh].
    injection H as <- <- <- <-. exists shares, exts0, exts, random. eexists. cbn [ws_hello ws_dh]. do 3 (split; [assumption|]). split; [exact M|reflexivity].
Qed.

Lemma client_hrr_ok P o w st hm sh w' s acts retry : client_hrr P o w st hm sh = (w', Ok (s, acts, retry)) ->
  exists cookie ps exts, cipherSuiteMap (sh_suite sh) = Some ps /\ retry = false /\ acts = [ResetOut 1] /\
    s = CStart (mkCst (ws_serverName st) (ws_nextProtos st) no_params (Some cookie)
                      (Some (message_hash (digest P (s_hash ps) (hm_marshal (ws_hello st))))) (Some hm)) /\
    ext_recv o (set_suites (w_cfg w) [sh_suite sh]) htHelloRetryRequest (sh_exts sh) = Ok exts /\
    el_find exts etCookie cookie_unmarshal = Some (Ok cookie) /\
    w_cfg w' = set_suites (w_cfg w) [sh_suite sh] /\ w_hash w' = w_hash w.
Proof.
  unfold client_hrr, done. intros H. inv_pure H as exts H1. cbn [w_cfg set_cfg] in *. inv_pure H as found H2.
  destruct found as [cookie|]; [|discriminate]. destruct (negb _); [discriminate|].
  destruct (cipherSuiteMap (sh_suite sh)) as [ps|]; [|discriminate].
  injection H as <- <- <- <-. exists cookie, ps, exts.
  assert (el_find exts etCookie cookie_unmarshal = Some (Ok cookie)) as F.
  { destruct (el_find exts etCookie cookie_unmarshal) as [r|]; [|discriminate]. inv_bind H2 as c H3. apply or_alert_ok in H3. congruence. }
  auto 10.
Qed.

Definition zeros (ps : suite) : bytes := repeat x00 (hsize (s_hash ps)).
Lemma client_server_hello_ok P o w st hm sh w' s acts retry : client_server_hello P o w st hm sh = (w', Ok (s, acts, retry)) ->
  exists exts found selected share ps dh, ext_recv o (w_cfg w) htServerHello (sh_exts sh) = Ok exts /\
    el_parse exts sh_dsts (None, None) = Ok (found, (selected, share)) /\
    cipherSuiteMap (sh_suite sh) = Some ps /\
    let usingPSK := match selected with Some i => (i =? 0) || p_usingPSK (ws_params st) | None => p_usingPSK (ws_params st) end in
    let usingDH := match share with Some _ => true | None => p_usingDH (ws_params st) end in
    match share with
    | None => dh = None
    | Some ks => exists priv, dh_lookup (ks_group ks) (ws_dh st) = Some priv /\
                   match keyAgreement P (ks_group ks) (ks_data ks) priv with Ok z => dh = Some z | Err _ => dh = None | _ => False end
    end /\
    w_hash w' = omarshal (ws_first st) ++ omarshal (ws_hrr st) ++ hm_marshal (ws_hello st) ++ hm_marshal hm /\
    let es := if usingPSK then ws_earlySecret st else early_secret P ps (zeros ps) in
    let '(chs, shs, master) := handshake_secrets P ps es (match dh with Some z => z | None => zeros ps end) (hash_sum P ps w') in
    let params := set_sh_params (ws_params st) usingPSK usingDH (sh_suite sh) in
    s = CWaitEE (mkCk params ps master chs shs) /\ retry = false /\
    acts = RekeyIn EpochHandshakeData (makeTrafficKeys P ps shs) ::
           (if p_clientSendingEarlyData params then [] else [RekeyOut EpochHandshakeData (makeTrafficKeys P ps chs)]).
Proof.
  unfold client_server_hello, done. intros H. inv_pure H as exts H1. inv_pure H as [found [selected share]] H2.
  inv_pure H as [usingDH dh] H3. destruct (cipherSuiteMap (sh_suite sh)) as [ps|]; [|discriminate].
  injection H as <- <- <- <-. exists exts, found, selected, share, ps, dh. split; [exact H1|]. split; [exact H2|]. split; [reflexivity|].
  cbv zeta. destruct share as [ks|].
  - destruct (dh_lookup (ks_group ks) (ws_dh st)) as [priv|]; [|discriminate]. split.
    { exists priv. split; [reflexivity|]. destruct (keyAgreement P (ks_group ks) (ks_data ks) priv); try discriminate; congruence. }
    split; [reflexivity|]. assert (usingDH = true) as -> by (destruct (keyAgreement P (ks_group ks) (ks_data ks) priv); congruence).
    cbn. auto.
  - injection H3 as <- <-. split; [reflexivity|]. split; [reflexivity|]. cbn. auto.
Qed.

Lemma client_wait_sh_ok P o w st hm w' s acts retry : client_wait_sh P o w st hm = (w', Ok (s, acts, retry)) ->
  exists sh n versions, hm_type hm = htServerHello /\ sh_unmarshal (hm_body hm) = Ok (sh, n) /\ sh_version sh = tls12Version /\
    el_find (sh_exts sh) etSupportedVersions versions_server_unmarshal = Some (Ok (tls13Version :: versions)) /\
    In (sh_suite sh) (cf_cipherSuites (w_cfg w)) /\
    ((sh_random sh = hrrRandomSentinel /\ client_hrr P o w st hm sh = (w', Ok (s, acts, retry))) \/
     (sh_random sh <> hrrRandomSentinel /\ client_server_hello P o w st hm sh = (w', Ok (s, acts, retry)))).
Proof.
  unfold client_wait_sh. intros H. destruct (Byte.eqb (hm_type hm) htServerHello) eqn:T; [|discriminate]. apply Byte.byte_dec_bl in T.
  cbn [negb] in H. inv_pure H as [sh n] H1. destruct (N.eqb_spec (sh_version sh) tls12Version) as [V|]; [|discriminate]. cbn [negb] in H.
  destruct (el_find _ _ _) as [r|] eqn:F; [|discriminate]. inv_pure H as versions H2. subst r.
  destruct versions as [|v vs]; [discriminate|]. destruct (N.eqb_spec v tls13Version) as [->|]; [|discriminate]. cbn [negb] in H.
  destruct (existsb _ _) eqn:I; [|discriminate]. cbn [negb] in H. apply existsb_exists in I. destruct I as (x & I & Ix). apply N.eqb_eq in Ix. subst x.
  exists sh, n, vs. do 5 (split; [assumption|]). destruct (beqb (sh_random sh) hrrRandomSentinel) eqn:B.
  - left. split; [now apply beqb_eq|exact H].
  - right. split; [|exact H]. intros C. rewrite C, beqb_refl in B. discriminate.
Qed.

Lemma client_wait_ee_ok P o w k hm w' s acts retry : client_wait_ee P o w k hm = (w', Ok (s, acts, retry)) ->
  exists exts exts' found protos, hm_type hm = htEncryptedExtensions /\ safeUnmarshal ee_unmarshal (hm_body hm) = Ok exts /\
    ext_recv o (w_cfg w) htEncryptedExtensions exts = Ok exts' /\ el_parse exts' ee_dsts [] = Ok (found, protos) /\
    w_hash w' = w_hash w ++ hm_marshal hm /\ retry = false /\
    let early := existsb (N.eqb etEarlyData) found in
    let k' := set_ck_params k (set_ee_params (ck_params k) early (match protos with p :: _ => p | [] => p_nextProto (ck_params k) end)) in
    s = (if p_usingPSK (ck_params k) then CWaitFinished k' (cf_certificates (w_cfg w)) None [] [] else CWaitCertCR k') /\
    acts = (if p_clientSendingEarlyData (ck_params k) && negb early then [RekeyOut EpochHandshakeData (makeTrafficKeys P (ck_suite k) (ck_chs k))] else []).
Proof.
  unfold client_wait_ee, done. intros H. destruct (Byte.eqb (hm_type hm) htEncryptedExtensions) eqn:T; [|discriminate]. apply Byte.byte_dec_bl in T.
  cbn [negb] in H. inv_pure H as exts H1. inv_pure H as exts' H2. inv_pure H as [found protos] H3.
  exists exts, exts', found, protos. do 4 (split; [assumption|]). cbn [ck_params set_ck_params set_ee_params p_usingPSK p_clientSendingEarlyData ck_suite ck_chs] in *.
  destruct (p_usingPSK (ck_params k)); injection H as <- <- <- <-; auto 10.
Qed.

(** [toBody] decides by the message type. *)
Lemma byte_eq a b : Byte.eqb a b = true -> a = b.
Proof. apply Byte.byte_dec_bl. Qed.
Lemma byte_eq_refl a : Byte.eqb a a = true.
Proof. now apply Byte.byte_dec_lb. Qed.
Lemma toBody_type parses t data b : toBody parses t data = Ok b -> t = body_type b.
Proof.
  unfold toBody.
  do 10 (match goal with |- (if Byte.eqb t ?x then _ else _) = _ -> _ => destruct (Byte.eqb t x) eqn:T; [apply byte_eq in T; rewrite T; intros K; inv_bind K as v K1; apply Ok_inj in K; subst b; reflexivity|clear T] end).
  discriminate.
Qed.
Lemma toBody_cert parses data : toBody parses htCertificate data = do c <- safeUnmarshal (cert_unmarshal parses) data; Ok (BCertificate c).
Proof. reflexivity. Qed.
Lemma toBody_cr parses data : toBody parses htCertificateRequest data = do c <- safeUnmarshal cr_unmarshal data; Ok (BCertificateRequest c).
Proof. reflexivity. Qed.

Lemma client_wait_cert_cr_ok X w k hm w' s acts retry : client_wait_cert_cr X w k hm = (w', Ok (s, acts, retry)) ->
  w_hash w' = w_hash w ++ hm_marshal hm /\ retry = false /\ acts = [] /\
  ((exists cert, hm_type hm = htCertificate /\ safeUnmarshal (cert_unmarshal (x_parses X)) (hm_body hm) = Ok cert /\ s = CWaitCV k cert None) \/
   (exists cr, hm_type hm = htCertificateRequest /\ safeUnmarshal cr_unmarshal (hm_body hm) = Ok cr /\ cr_context cr = [] /\
               s = CWaitCert (set_ck_params k (set_clientAuth (ck_params k))) cr)).
Proof.
  unfold client_wait_cert_cr, done. intros H. inv_pure H as b H1. pose proof (toBody_type _ _ _ _ H1) as T.
  destruct b; try discriminate; cbn in T.
  - injection H as <- <- <- <-. do 3 (split; [reflexivity|]). left. exists c. split; [exact T|]. rewrite T, toBody_cert in H1. inv_bind H1 as c1 H2. 
    split; [congruence|reflexivity].
  - destruct (cr_context c) eqn:Cx; [|discriminate]. injection H as <- <- <- <-. do 3 (split; [reflexivity|]). right. exists c. split; [exact T|].
    rewrite T, toBody_cr in H1. inv_bind H1 as c1 H2. split; [congruence|auto].
Qed.

Lemma client_wait_cert_ok X w k cr hm w' s acts retry : client_wait_cert X w k cr hm = (w', Ok (s, acts, retry)) ->
  w_hash w' = w_hash w ++ hm_marshal hm /\ retry = false /\ acts = [] /\
  exists cert, hm_type hm = htCertificate /\ safeUnmarshal (cert_unmarshal (x_parses X)) (hm_body hm) = Ok cert /\ s = CWaitCV k cert (Some cr).
Proof.
  unfold client_wait_cert, done. intros H. destruct (Byte.eqb (hm_type hm) htCertificate) eqn:T; [|discriminate]. apply byte_eq in T.
  cbn [negb] in H. inv_pure H as cert H1. injection H as <- <- <- <-. do 3 (split; [reflexivity|]). exists cert. auto.
Qed.

Lemma client_wait_cv_ok P X o w k cert cr hm w' s acts retry : client_wait_cv P X o w k cert cr hm = (w', Ok (s, acts, retry)) ->
  w_hash w' = w_hash w ++ hm_marshal hm /\ retry = false /\ acts = [] /\
  exists cv leaf rest chains, hm_type hm = htCertificateVerify /\ safeUnmarshal cv_unmarshal (hm_body hm) = Ok cv /\
    map ce_cert (ct_list cert) = leaf :: rest /\ cv_verify P X cv leaf (hash_sum P (ck_suite k) w) = Ok tt /\
    (if cf_insecureSkipVerify (w_cfg w) then chains = []
     else x_chain X (cf_rootCAs (w_cfg w)) (cf_serverName (w_cfg w)) (cfg_time o (w_cfg w)) leaf rest = Some chains) /\
    peer_ok o (w_cfg w) (leaf :: rest) chains = true /\
    s = CWaitFinished k (cf_certificates (w_cfg w)) cr (leaf :: rest) chains.
Proof.
  unfold client_wait_cv, done. intros H. destruct (Byte.eqb (hm_type hm) htCertificateVerify) eqn:T; [|discriminate]. apply byte_eq in T.
  cbn [negb] in H. inv_pure H as cv H1. destruct (map ce_cert (ct_list cert)) as [|leaf rest]; [discriminate|].
  inv_pure H as u H2. destruct u. inv_pure H as chains H3. destruct (peer_ok o (w_cfg w) (leaf :: rest) chains) eqn:Po; [|discriminate].
  injection H as <- <- <- <-. do 3 (split; [reflexivity|]). exists cv, leaf, rest, chains. do 4 (split; [assumption || reflexivity|]).
  split; [|auto]. destruct (cf_insecureSkipVerify (w_cfg w)); [congruence|]. destruct (x_chain _ _ _ _ _ _); [|discriminate]. apply Ok_inj in H3. now subst.
Qed.

Lemma fin_unmarshal_ok n data d : safeUnmarshal (fin_unmarshal n) data = Ok d -> d = data /\ List.length data = n.
Proof.
  unfold safeUnmarshal, fin_unmarshal. destruct (_ <? _)%nat eqn:L; [discriminate|]. cbn [bind]. destruct (Nat.eqb_spec (List.length data) n) as [<-|]; [|discriminate].
  cbn [negb]. intros H. apply Ok_inj in H. subst d. split; [now rewrite firstn_all|reflexivity].
Qed.

Lemma client_eoed_ok P w k w' acts : client_eoed P w k = (w', Ok acts) ->
  w_hash w' = w_hash w ++ marshals (sent_of acts) /\
  (if p_usingEarlyData (ck_params k) then exists m, made w BEndOfEarlyData m /\
     acts = [QueueHandshakeMessage m; RekeyOut EpochHandshakeData (makeTrafficKeys P (ck_suite k) (ck_chs k))] else acts = []).
Proof.
  unfold client_eoed. destruct (p_usingEarlyData (ck_params k)).
  - intros H. inv_call H as w1 m M. apply new_ok in M. destruct M as [M Mh]. injection H as <- <-.
    split; [cbn; rewrite Mh, app_nil_r; reflexivity|]. eauto.
  - intros [= <- <-]. cbn. rewrite app_nil_r. auto.
Qed.

Definition only_messages (l : list action) : Prop := Forall (fun a => exists m, a = QueueHandshakeMessage m) l.
Lemma client_auth_ok P X o w k certs cr w' acts : client_auth P X o w k certs cr = (w', Ok acts) ->
  w_hash w' = w_hash w ++ marshals (sent_of acts) /\ only_messages acts /\
  (if p_usingClientAuth (ck_params k) then
     exists c, cr = Some c /\ exists schemes, el_find (cr_exts c) etSignatureAlgorithms list16_unmarshal = Some (Ok schemes) /\
     ((exists certm, acts = [QueueHandshakeMessage certm] /\ hm_type certm = htCertificate /\ is_err (certificateSelection X None schemes certs)) \/
      (exists certm cvm cert scheme cv, acts = [QueueHandshakeMessage certm; QueueHandshakeMessage cvm] /\
         certificateSelection X None schemes certs = Ok (cert, scheme) /\
         hm_type certm = htCertificate /\ body_marshal (chain_body (kp_chain cert)) = Ok (hm_body certm) /\
         cv_sign P X scheme (kp_key cert) (digest P (s_hash (ck_suite k)) (w_hash w ++ hm_marshal certm)) (o_sig o) = Ok cv /\
         hm_type cvm = htCertificateVerify /\ cv_marshal cv = Ok (hm_body cvm)))
   else acts = []).
Proof.
  unfold client_auth. destruct (p_usingClientAuth (ck_params k)); cbn [negb].
  - destruct cr as [c|]; [|discriminate]. destruct (el_find _ _ _) as [r|] eqn:F; [|discriminate]. intros H. inv_pure H as schemes H1. subst r.
    destruct (certificateSelection X None schemes certs) as [[cert scheme]|e| |] eqn:S; try discriminate.
    + inv_call H as w1 certm M. apply new_ok in M. destruct M as [M Mh]. inv_pure H as cv H2.
      inv_call H as w2 cvm N. apply new_ok in N. destruct N as [N Nh]. injection H as <- <-.
      split; [cbn; rewrite Nh; cbn; rewrite Mh, app_nil_r, <- app_assoc; reflexivity|].
      split; [repeat constructor; eauto|]. exists c. split; [reflexivity|]. exists schemes. split; [exact F|]. right.
      exists certm, cvm, cert, scheme, cv. split; [reflexivity|]. split; [exact S|]. destruct M as (M1 & M2 & _). destruct N as (N1 & N2 & _).
      split; [exact M2|]. split; [exact M1|]. split; [|split; [exact N2|exact N1]]. unfold hash_sum, hash_write in H2. cbn in H2. now rewrite Mh in H2.
    + inv_call H as w1 certm M. apply new_ok in M. destruct M as [(M1 & M2 & _) Mh]. injection H as <- <-.
      split; [cbn; rewrite Mh, app_nil_r; reflexivity|]. split; [repeat constructor; eauto|]. exists c. split; [reflexivity|].
      exists schemes. split; [exact F|]. left. exists certm. split; [reflexivity|]. split; [exact M2|]. now exists e.
  - intros [= <- <-]. cbn. rewrite app_nil_r. split; [reflexivity|]. split; [constructor|reflexivity].
Qed.

Lemma client_wait_finished_ok P X o w k certs cr peer chains hm w' s acts retry :
  client_wait_finished P X o w k certs cr peer chains hm = (w', Ok (s, acts, retry)) ->
  exists w1 w2 eoed auth finm, hm_type hm = htFinished /\
    let ps := ck_suite k in
    hm_body hm = computeFinishedData P ps (ck_shs k) (digest P (s_hash ps) (w_hash w)) /\
    client_eoed P (hash_write w (hm_marshal hm)) k = (w1, Ok eoed) /\ client_auth P X o w1 k certs cr = (w2, Ok auth) /\
    hm_type finm = htFinished /\ hm_body finm = computeFinishedData P ps (ck_chs k) (digest P (s_hash ps) (w_hash w2)) /\
    w_hash w' = w_hash w2 ++ hm_marshal finm /\ retry = false /\
    let h4 := digest P (s_hash ps) (w_hash w ++ hm_marshal hm) in
    let cts := deriveSecret P ps (ck_master k) labelClientApplicationTrafficSecret h4 in
    let sts := deriveSecret P ps (ck_master k) labelServerApplicationTrafficSecret h4 in
    s = Connected (mkConn (ck_params k) true ps (deriveSecret P ps (ck_master k) labelResumptionSecret (digest P (s_hash ps) (w_hash w')))
                          cts sts (deriveSecret P ps (ck_master k) labelExporterSecret h4) peer chains) /\
    acts = eoed ++ auth ++ [QueueHandshakeMessage finm; SendQueuedHandshake;
                            RekeyIn EpochApplicationData (makeTrafficKeys P ps sts); RekeyOut EpochApplicationData (makeTrafficKeys P ps cts)] /\
    w_hash w' = w_hash w ++ hm_marshal hm ++ marshals (sent_of acts).
Proof.
  unfold client_wait_finished, done. intros H. destruct (Byte.eqb (hm_type hm) htFinished) eqn:T; [|discriminate]. apply byte_eq in T.
  cbn [negb] in H. inv_pure H as vd H1. apply fin_unmarshal_ok in H1. destruct H1 as [-> _].
  destruct (beqb _ _) eqn:B; [|discriminate]. apply beqb_eq in B. cbn [negb] in H.
  inv_call H as w1 eoed Ee. inv_call H as w2 auth Ea. inv_call H as w3 finm M. apply new_ok in M. destruct M as [(M1 & M2 & _) Mh].
  injection H as <- <- <- <-. exists w1, w2, eoed, auth, finm. split; [exact T|]. cbv zeta. split; [exact B|]. split; [exact Ee|]. split; [exact Ea|].
  split; [exact M2|]. split.
  { cbn in M1. unfold fin_marshal in M1. destruct (_ =? _)%nat in M1; [|discriminate]. cbn in M1. unfold hash_sum in M1. congruence. }
  split; [cbn; now rewrite Mh|]. split; [reflexivity|].
  pose proof (client_eoed_ok _ _ _ _ _ Ee) as [He _]. pose proof (client_auth_ok _ _ _ _ _ _ _ _ _ Ea) as [Ha _].
  split; [|split; [reflexivity|]].
  - unfold hash_sum. cbn [w_hash hash_write set_hash set_ctx]. reflexivity.
  - cbn [w_hash hash_write set_hash set_ctx] in *. rewrite Mh, Ha, He, !sent_app, !marshals_app. cbn [sent_of]. rewrite marshals_one, <- !app_assoc. reflexivity.
Qed.

(** ** The server *)

Definition cookie_checked (o : oracle) (cfg : config) (x : chexts) (first : option (hmsg * suite)) : Prop :=
  match cx_cookie x with
  | [] => first = None
  | token => exists pr plain c s, cf_cookieProtector cfg = Some pr /\ o_decodeToken o pr token = Some plain /\ cookie_of plain = Ok c /\
      match cf_cookieHandler cfg with Some h => o_validate o h (co_app c) = true | None => True end /\
      cipherSuiteMap (co_suite c) = Some s /\ first = Some (message_hash (co_hash c), s)
  end.
Lemma check_cookie_ok o cfg token f s : check_cookie o cfg token = Ok (f, s) ->
  exists pr plain c, cf_cookieProtector cfg = Some pr /\ o_decodeToken o pr token = Some plain /\ cookie_of plain = Ok c /\
    match cf_cookieHandler cfg with Some h => o_validate o h (co_app c) = true | None => True end /\
    cipherSuiteMap (co_suite c) = Some s /\ f = message_hash (co_hash c).
Proof.
  unfold check_cookie. destruct (cf_cookieProtector cfg) as [pr|]; [|discriminate]. destruct (o_decodeToken o pr token) as [plain|] eqn:D; [|discriminate].
  intros H. inv_bind H as c H1. apply or_alert_ok in H1.
  assert (match cf_cookieHandler cfg with Some h => o_validate o h (co_app c) = true | None => True end) as V.
  { destruct (cf_cookieHandler cfg) as [h|]; [|exact I]. destruct (o_validate o h (co_app c)); [reflexivity|discriminate]. }
  destruct (negb _); [discriminate|]. destruct (cipherSuiteMap (co_suite c)) as [s'|] eqn:S; [|discriminate]. injection H as <- <-.
  exists pr, plain, c. auto 10.
Qed.

Lemma generate_hrr_ok o w suite ses t w' m : generateHRR o w suite ses t = (w', Ok m) ->
  exists l exts, (do l <- el_add [] etSupportedVersions (versions_server_marshal [tls13Version]); el_add l etCookie (cookie_marshal t)) = Ok l /\
    ext_send o (w_cfg w) htHelloRetryRequest l = Ok exts /\
    made w (BServerHello (mkSh tls12Version hrrRandomSentinel ses suite 0 exts)) m /\ w_hash w' = w_hash w.
Proof.
  unfold generateHRR. intros H. inv_pure H as l H1. inv_pure H as exts H2. apply new_ok in H. destruct H as [M Mh]. exists l, exts. auto.
Qed.

Lemma server_psk_ok P o w ch x first w' chosen : server_psk P o w ch x first = (w', Ok chosen) ->
  w_hash w' = w_hash w /\
  match cx_psk x with
  | ([], _) => chosen = None
  | (ids, binders) => exists base trunc, ch_truncated ch = Ok trunc /\
      match first with
      | None => base = []
      | Some f => exists w1 hrr, generateHRR o w 0 (ch_session ch) (cx_cookie x) = (w1, Ok hrr) /\ base = hm_marshal f ++ hm_marshal hrr
      end /\
      pskNegotiation P (o_now o) (cache_get (w_psks w)) 0 ids binders (base ++ trunc) = Ok chosen
  end.
Proof.
  unfold server_psk. destruct (cx_psk x) as [ids binders]. destruct ids as [|i ids]; [intros [= <- <-]; auto|]. intros H.
  inv_call H as w1 base H1. inv_pure H as trunc H2. destruct (cf_psks (w_cfg w1)); [|discriminate]. apply pair_ok in H. destruct H as [-> H]. apply or_alert_ok in H.
  destruct first as [f|].
  - inv_call H1 as w2 hrr H3. apply pair_ok in H1. destruct H1 as [-> H1]. apply Ok_inj in H1.
    pose proof (frame_hrr w o w 0 (ch_session ch) (cx_cookie x) (frame_refl w)) as F. rewrite H3 in F. destruct F as (_ & F & _). cbn in F.
    pose proof (generate_hrr_ok _ _ _ _ _ _ _ H3) as (? & ? & _ & _ & _ & Hh).
    split; [exact Hh|]. exists base, trunc. split; [exact H2|]. split; [exists w2, hrr; auto|]. now rewrite <- F.
  - apply pair_ok in H1. destruct H1 as [-> H1]. apply Ok_inj in H1. split; [reflexivity|]. exists base, trunc. split; [exact H2|]. split; [auto|exact H].
Qed.

Lemma new_cookie_ok P o cfg suite hello token : new_cookie P o cfg suite hello = Ok (Some token) ->
  exists app s pr plain, cipherSuiteMap suite = Some s /\ co_marshal (mkCookie suite (digest P (s_hash s) (hm_marshal hello)) app) = Ok plain /\
    cf_cookieProtector cfg = Some pr /\ o_newToken o pr plain = Some token.
Proof.
  unfold new_cookie. intros H. inv_bind H as app H1. destruct app as [app|]; [|discriminate]. destruct (cipherSuiteMap suite) as [s|] eqn:S; [|discriminate].
  inv_bind H as plain H2. apply or_alert_ok in H2. destruct (cf_cookieProtector cfg) as [pr|]; [|discriminate].
  destruct (o_newToken o pr plain) as [t|] eqn:T; [|discriminate]. injection H as <-. exists app, s, pr, plain. auto.
Qed.

Lemma server_retry_ok P o w ch suite hello sent w' hrr retry : server_retry P o w ch suite hello sent = (w', Ok (hrr, retry)) ->
  w_hash w' = w_hash w /\
  (if cf_requireCookie (w_cfg w) then
     match sent with
     | _ :: _ => retry = false /\ exists m, hrr = Some m /\ generateHRR o w suite (ch_session ch) sent = (w', Ok m)
     | [] => (exists token m, new_cookie P o (w_cfg w) suite hello = Ok (Some token) /\ hrr = Some m /\ retry = true /\
                generateHRR o w suite (ch_session ch) token = (w', Ok m)) \/
             (new_cookie P o (w_cfg w) suite hello = Ok None /\ hrr = None /\ retry = false)
     end
   else hrr = None /\ retry = false).
Proof.
  unfold server_retry. destruct (cf_requireCookie (w_cfg w)); cbn [negb]; [|intros [= <- <- <-]; auto].
  destruct sent as [|b sent].
  - intros H. inv_pure H as token H1. destruct token as [t|].
    + inv_call H as w1 m H2. injection H as <- <- <-. pose proof (generate_hrr_ok _ _ _ _ _ _ _ H2) as (? & ? & _ & _ & _ & Hh). split; [exact Hh|]. left. exists t, m. auto.
    + injection H as <- <- <-. auto.
  - intros H. inv_call H as w1 m H2. injection H as <- <- <-. pose proof (generate_hrr_ok _ _ _ _ _ _ _ H2) as (? & ? & _ & _ & _ & Hh).
    split; [exact Hh|]. split; [reflexivity|]. exists m. auto.
Qed.

Definition server_early (P : prims) (usingEarly : bool) (chosen : option (nat * psk * suite)) (hm : hmsg) : bytes :=
  match chosen with
  | Some (_, p, ps) => if usingEarly then deriveSecret P ps (early_secret P ps (psk_key p)) labelEarlyTrafficSecret (digest P (s_hash ps) (hm_marshal hm)) else []
  | None => []
  end.
Lemma server_start_ok P X o w hm w' s acts retry : server_start P X o w hm = (w', Ok (s, acts, retry)) ->
  exists ch exts found x v first dhs dh chosen suite hrr again w1 w2 w3,
    hm_type hm = htClientHello /\ safeUnmarshal (ch_unmarshal (wireVersion (x_in (w_ctx w)))) (hm_body hm) = Ok ch /\
    ch_version ch = wireVersion (x_in (w_ctx w)) /\ ext_recv o (w_cfg w) htClientHello (ch_exts ch) = Ok exts /\
    el_parse exts ch_dsts no_chexts = Ok (found, x) /\ In etSupportedVersions found /\
    versionNegotiation (cx_versions x) [tls13Version] = Some v /\ cookie_checked o (w_cfg w) x first /\
    (List.length (ch_session ch) = 0 \/ List.length (ch_session ch) = 32)%nat /\
    dhNegotiation P (o_keys o) 0 (cx_shares x) (cf_groups (w_cfg w)) = Ok (dhs, dh) /\
    server_psk P o w (set_exts ch exts) x (match first with Some (f, _) => Some f | None => None end) = (w1, Ok chosen) /\
    let key := match chosen with Some (_, p, _) => Some p | None => None end in
    let '(usingDH, usingPSK) := pskModeNegotiation (match dh with Some _ => true | None => false end) (match chosen with Some _ => true | None => false end) (cx_modes x) in
    cipherSuiteNegotiation key (ch_suites ch) (cf_cipherSuites (w_cfg w)) = Ok suite /\
    (forall f s, first = Some (f, s) -> s_id s = suite) /\
    server_retry P o w1 (set_exts ch exts) suite hm (cx_cookie x) = (w2, Ok (hrr, again)) /\
    retry = again /\ w_hash w' = w_hash w /\
    if again then s = SStart /\ w' = w2 /\ acts = match hrr with Some m => [QueueHandshakeMessage m; SendQueuedHandshake] | None => [] end
    else usingDH || usingPSK = true /\
      exists cert scheme proto, server_cert X (w_cfg w) found x usingPSK = Ok (cert, scheme) /\
        alpnNegotiation (if usingPSK then key else None) (cx_protos x) (cf_nextProtos (w_cfg w)) = Ok proto /\ acts = [] /\ w' = ctx_setVersion w3 tls12Version /\
        let got := existsb (N.eqb etEarlyData) found in
        let '(usingEarly, rejected) := earlyDataNegotiation usingPSK got (cf_allowEarlyData (w_cfg w)) in
        let params := mkPar usingPSK usingDH got usingEarly rejected false suite (if existsb (N.eqb etServerName) found then cx_name x else []) proto in
        s = SNegotiated (mkNeg params (match dh with Some (g, _, _) => g | None => 0 end) (match dh with Some (_, p, _) => p | None => [] end)
                             (if usingDH then match dh with Some (_, _, z) => Some z | None => None end else None)
                             (if usingPSK then match key with Some p => psk_key p | None => [] end else [])
                             (server_early P usingEarly chosen hm) (match chosen with Some (i, _, _) => i | None => 0%nat end) cert scheme (ch_session ch)
                             (match first with Some (f, _) => Some f | None => None end) hrr hm).
Proof.
  unfold server_start, done. intros H. destruct (Byte.eqb (hm_type hm) htClientHello) eqn:T; [|discriminate]. apply byte_eq in T. cbn [negb] in H.
  inv_pure H as ch H1. destruct (N.eqb_spec (ch_version ch) (wireVersion (x_in (w_ctx w)))) as [V|]; [|discriminate]. cbn [negb] in H.
  inv_pure H as exts H2. inv_pure H as [found x] H3. destruct (existsb (N.eqb etSupportedVersions) found) eqn:F; [|discriminate]. cbn [negb] in H.
  destruct (versionNegotiation (cx_versions x) [tls13Version]) as [v|] eqn:Vn; [|discriminate].
  inv_pure H as first H4. destruct (negb (_ || _)) eqn:Sl; [discriminate|]. inv_pure H as [dhs dh] H5.
  inv_call H as w1 chosen H6.
  pose proof (frame_psk w P o w (set_exts ch exts) x (match first with Some (f, _) => Some f | None => None end) (frame_refl w)) as Fr.
  rewrite H6 in Fr. destruct Fr as (Fc & _ & _). cbn [fst] in Fc.
  destruct (pskModeNegotiation _ _ _) as [usingDH usingPSK] eqn:Pm. inv_pure H as suite H7. rewrite Fc in H7.
  destruct (match first with Some (_, s) => negb (s_id s =? suite) | None => false end) eqn:Fs; [discriminate|].
  inv_call H as w2 [hrr again] H8.
  pose proof (frame_retry w1 P o w1 (set_exts ch exts) suite hm (cx_cookie x) (frame_refl w1)) as Fr. rewrite H8 in Fr. destruct Fr as (Fc2 & _ & _). cbn [fst] in Fc2.
  pose proof (server_psk_ok _ _ _ _ _ _ _ _ H6) as [Hh1 _]. pose proof (server_retry_ok _ _ _ _ _ _ _ _ _ _ H8) as [Hh2 _].
  exists ch, exts, found, x, v, first, dhs, dh, chosen, suite, hrr, again, w1, w2, (set_ctx w2 (receivedEndOfFlight (w_ctx w2))).
  split; [exact T|]. split; [exact H1|]. split; [exact V|]. split; [exact H2|]. split; [exact H3|]. split.
  { apply existsb_exists in F. destruct F as (y & Fy & Ey). apply N.eqb_eq in Ey. now subst y. }
  split; [exact Vn|]. split.
  { unfold cookie_checked. destruct (cx_cookie x) as [|b t]; [congruence|]. inv_bind H4 as c H9. destruct c as [f s0].
    apply check_cookie_ok in H9. destruct H9 as (pr & plain & c & A1 & A2 & A3 & A4 & A5 & A6). exists pr, plain, c, s0. rewrite <- A6.
    apply Ok_inj in H4. auto 10. }
  split. { apply Bool.negb_false_iff, Bool.orb_true_iff in Sl. destruct Sl as [Sl|Sl]; apply Nat.eqb_eq in Sl; auto. }
  split; [exact H5|]. split; [exact H6|]. cbv zeta. rewrite Pm. split; [exact H7|]. split.
  { intros f s0 ->. apply Bool.negb_false_iff, N.eqb_eq in Fs. exact Fs. }
  split; [exact H8|]. destruct again.
  { injection H as <- <- <- <-. split; [reflexivity|]. split; [congruence|]. auto. }
  destruct (negb usingDH && negb usingPSK) eqn:Dp; [discriminate|]. inv_pure H as [cert scheme] H9.
  rewrite Fc2, Fc in *.
  destruct (earlyDataNegotiation usingPSK _ _) as [usingEarly rejected] eqn:Ed. inv_pure H as proto H10.
  injection H as <- <- <- <-. split; [reflexivity|]. split; [cbn; congruence|]. split; [destruct usingDH, usingPSK; auto|].
  exists cert, scheme, proto. split; [exact H9|]. split; [exact H10|]. split; [reflexivity|]. split; [reflexivity|]. reflexivity.
Qed.

Lemma only_cons m l : only_messages l -> only_messages (QueueHandshakeMessage m :: l).
Proof. intros H. constructor; [eauto|exact H]. Qed.
Lemma only_nil : only_messages [].
Proof. constructor. Qed.

Lemma server_auth_ok P X o w n ps w' clientAuth acts : server_auth P X o w n ps = (w', Ok (clientAuth, acts)) ->
  w_hash w' = w_hash w ++ marshals (sent_of acts) /\ only_messages acts /\
  if p_usingPSK (n_params n) then clientAuth = p_usingClientAuth (n_params n) /\ acts = []
  else clientAuth = cf_requireClientAuth (w_cfg w) || p_usingClientAuth (n_params n) /\
    exists crs cert certm cvm cv, acts = crs ++ [QueueHandshakeMessage certm; QueueHandshakeMessage cvm] /\ n_cert n = Some cert /\
      (if cf_requireClientAuth (w_cfg w) then exists crm cr, crs = [QueueHandshakeMessage crm] /\ hm_type crm = htCertificateRequest /\ body_marshal (BCertificateRequest cr) = Ok (hm_body crm) /\ cr_context cr = []
       else crs = []) /\
      hm_type certm = htCertificate /\ body_marshal (chain_body (kp_chain cert)) = Ok (hm_body certm) /\
      cv_sign P X (n_certScheme n) (kp_key cert) (digest P (s_hash ps) (w_hash w ++ marshals (sent_of crs) ++ hm_marshal certm)) (o_sig o) = Ok cv /\
      hm_type cvm = htCertificateVerify /\ cv_marshal cv = Ok (hm_body cvm).
Proof.
  unfold server_auth. destruct (p_usingPSK (n_params n)).
  { intros [= <- <- <-]. cbn. rewrite app_nil_r. split; [reflexivity|]. split; [apply only_nil|auto]. }
  intros H. inv_call H as w1 [auth crs] H1. destruct (n_cert n) as [cert|]; [|discriminate].
  inv_call H as w2 certm M. apply new_ok in M. destruct M as [(M1 & M2 & _) Mh]. inv_pure H as cv H2.
  inv_call H as w3 cvm N. apply new_ok in N. destruct N as [(N1 & N2 & _) Nh]. injection H as <- <- <-.
  assert (w_hash w1 = w_hash w ++ marshals (sent_of crs) /\ only_messages crs /\ auth = cf_requireClientAuth (w_cfg w) || p_usingClientAuth (n_params n) /\
          if cf_requireClientAuth (w_cfg w) then exists crm cr, crs = [QueueHandshakeMessage crm] /\ hm_type crm = htCertificateRequest /\ body_marshal (BCertificateRequest cr) = Ok (hm_body crm) /\ cr_context cr = [] else crs = []) as (A & B & C & D).
  { destruct (cf_requireClientAuth (w_cfg w)).
    - inv_pure H1 as exts H3. inv_call H1 as w4 crm Q. apply new_ok in Q. destruct Q as [(Q1 & Q2 & _) Qh]. injection H1 as <- <- <-.
      split; [cbn [sent_of w_hash hash_write set_hash]; now rewrite Qh, marshals_one|]. split; [apply only_cons, only_nil|]. split; [reflexivity|]. eauto 10.
    - injection H1 as <- <- <-. cbn. rewrite app_nil_r. split; [reflexivity|]. split; [apply only_nil|auto]. }
  cbn [w_hash hash_write set_hash] in *.
  split. { rewrite sent_app, marshals_app. cbn [sent_of]. now rewrite marshals_cons, marshals_one, Nh, Mh, A, <- !app_assoc. }
  split. { apply Forall_app. split; [exact B|]. apply only_cons, only_cons, only_nil. }
  split; [exact C|]. exists crs, cert, certm, cvm, cv. split; [reflexivity|]. split; [reflexivity|]. split; [exact D|]. split; [exact M2|]. split; [exact M1|].
  split; [|auto]. unfold hash_sum in H2. cbn [w_hash hash_write set_hash] in H2. now rewrite Mh, A, <- app_assoc in H2.
Qed.

Lemma server_negotiated_ok P X o w n w' s acts retry : server_negotiated P X o w n = (w', Ok (s, acts, retry)) ->
  exists random hexts eexts shm ps w1 w2 eem finm auth clientAuth,
    o_random o = Some random /\
    (do l <- or_alert (server_hello_exts n) AlertInternalError; ext_send o (w_cfg w) htServerHello l) = Ok hexts /\
    hm_type shm = htServerHello /\ sh_marshal (mkSh tls12Version random (n_sessionId n) (p_suite (n_params n)) 0 hexts) = Ok (hm_body shm) /\
    cipherSuiteMap (p_suite (n_params n)) = Some ps /\
    let base := omarshal (n_first n) ++ omarshal (n_hrr n) ++ hm_marshal (n_hello n) ++ hm_marshal shm in
    let es := early_secret P ps (if p_usingPSK (n_params n) then n_pskSecret n else zeros ps) in
    let '(chs, shs, master) := handshake_secrets P ps es (match n_dhSecret n with Some z => z | None => zeros ps end) (digest P (s_hash ps) base) in
    (do l <- or_alert (server_ee_exts n) AlertInternalError; ext_send o (w_cfg w) htEncryptedExtensions l) = Ok eexts /\
    hm_type eem = htEncryptedExtensions /\ ee_marshal eexts = Ok (hm_body eem) /\
    w_hash w1 = base ++ hm_marshal eem /\ w_cfg w1 = w_cfg w /\ server_auth P X o w1 n ps = (w2, Ok (clientAuth, auth)) /\
    hm_type finm = htFinished /\ hm_body finm = computeFinishedData P ps shs (digest P (s_hash ps) (w_hash w2)) /\
    w_hash w' = w_hash w2 ++ hm_marshal finm /\ retry = false /\
    let h4 := digest P (s_hash ps) (w_hash w') in
    let cts := deriveSecret P ps master labelClientApplicationTrafficSecret h4 in
    let sts := deriveSecret P ps master labelServerApplicationTrafficSecret h4 in
    let params := if clientAuth then set_clientAuth (n_params n) else n_params n in
    let k := mkSk params ps master chs cts sts (deriveSecret P ps master labelExporterSecret h4) in
    s = (if p_usingEarlyData params then SWaitEOED k else if p_rejectedEarlyData params then SReadPastEarlyData (SWaitFlight2 k) else SWaitFlight2 k) /\
    acts = [QueueHandshakeMessage shm; RekeyOut EpochHandshakeData (makeTrafficKeys P ps shs); QueueHandshakeMessage eem] ++ auth ++
           [QueueHandshakeMessage finm; SendQueuedHandshake; RekeyOut EpochApplicationData (makeTrafficKeys P ps sts)] ++
           [if p_usingEarlyData params then RekeyIn EpochEarlyData (makeTrafficKeys P ps (n_earlyTrafficSecret n)) else RekeyIn EpochHandshakeData (makeTrafficKeys P ps chs)] /\
    w_hash w' = omarshal (n_first n) ++ omarshal (n_hrr n) ++ hm_marshal (n_hello n) ++ marshals (sent_of acts).
Proof.
  unfold server_negotiated, done. intros H. destruct (o_random o) as [random|]; [|discriminate].
  inv_call H as w0 l0 H0. apply pair_ok in H0. destruct H0 as [-> H0]. inv_pure H as hexts H1.
  inv_call H as w3 shm M. pose proof (frame_new w w (BServerHello (mkSh tls12Version random (n_sessionId n) (p_suite (n_params n)) 0 hexts)) (frame_refl w)) as Fr.
  rewrite M in Fr. destruct Fr as (Fc & _ & _). cbn [fst] in Fc.
  apply new_ok in M. destruct M as [(M1 & M2 & _) Mh].
  destruct (cipherSuiteMap (p_suite (n_params n))) as [ps|] eqn:S; [|discriminate].
  unfold hash_sum in H. cbn [w_hash hash_write set_hash w_cfg] in H.
  fold (zeros ps) in H. 
  match type of H with context [handshake_secrets P ps ?es ?dh ?h] => 
    replace es with (early_secret P ps (if p_usingPSK (n_params n) then n_pskSecret n else zeros ps)) in H by (destruct (p_usingPSK (n_params n)); reflexivity);
    destruct (handshake_secrets P ps (early_secret P ps (if p_usingPSK (n_params n) then n_pskSecret n else zeros ps)) dh h) as [[chs shs] master] eqn:Hs end.
  inv_call H as w4 l4 H4. apply pair_ok in H4. destruct H4 as [-> H4]. inv_pure H as eexts H5. cbn [w_cfg set_hash] in H5. rewrite Fc in H5.
  inv_call H as w5 eem N. 
  match type of N with newMessage ?a ?b = _ => pose proof (frame_new a a b (frame_refl a)) as Fr; rewrite N in Fr; destruct Fr as (Fc2 & _ & _); cbn [fst w_cfg set_hash] in Fc2 end.
  apply new_ok in N. destruct N as [(N1 & N2 & _) Nh]. cbn [w_hash set_hash] in Nh.
  inv_call H as w2 [clientAuth auth] Au. inv_call H as w6 finm Q. apply new_ok in Q. destruct Q as [(Q1 & Q2 & _) Qh].
  pose proof (server_auth_ok _ _ _ _ _ _ _ _ _ Au) as (Ha & _ & _).
  exists random, hexts, eexts, shm, ps, (hash_write w5 (hm_marshal eem)), w2, eem, finm, auth, clientAuth.
  split; [reflexivity|]. split; [rewrite H0; exact H1|]. split; [exact M2|]. split; [exact M1|]. split; [reflexivity|].
  cbv zeta. rewrite Hs. split; [rewrite H4; exact H5|]. split; [exact N2|]. split; [exact N1|].
  split; [cbn; now rewrite Nh|]. split; [cbn; congruence|]. split; [exact Au|]. split; [exact Q2|]. split.
  { cbn in Q1. unfold fin_marshal in Q1. destruct (_ =? _)%nat in Q1; [|discriminate]. cbn in Q1. unfold hash_sum in Q1. congruence. }
  assert (w_hash w2 = omarshal (n_first n) ++ omarshal (n_hrr n) ++ hm_marshal (n_hello n) ++ hm_marshal shm ++ hm_marshal eem ++ marshals (sent_of auth)) as W2.
  { rewrite Ha. cbn [w_hash hash_write set_hash]. now rewrite Nh, <- !app_assoc. }
  destruct (p_usingEarlyData (if clientAuth then set_clientAuth (n_params n) else n_params n)) eqn:Ed; injection H as <- <- <- <-;
    cbn [w_hash hash_write set_hash]; (split; [now rewrite Qh|]); (split; [reflexivity|]); (split; [|split; [now rewrite <- !app_assoc|]]).
  - reflexivity.
  - rewrite Qh, W2. cbn [app sent_of]. rewrite !sent_app. cbn [sent_of]. rewrite ?app_nil_r, !marshals_cons, !marshals_app, !marshals_one, <- !app_assoc. reflexivity.
  - reflexivity.
  - rewrite Qh, W2. cbn [app sent_of]. rewrite !sent_app. cbn [sent_of]. rewrite ?app_nil_r, !marshals_cons, !marshals_app, !marshals_one, <- !app_assoc. reflexivity.
Qed.

Lemma server_wait_eoed_ok P w k hm w' s acts retry : server_wait_eoed P w k hm = (w', Ok (s, acts, retry)) ->
  hm_type hm = htEndOfEarlyData /\ hm_body hm = [] /\ w_hash w' = w_hash w ++ hm_marshal hm /\ retry = false /\ s = SWaitFlight2 k /\
  acts = [RekeyIn EpochHandshakeData (makeTrafficKeys P (sk_suite k) (sk_chs k))].
Proof.
  unfold server_wait_eoed, done. destruct (Byte.eqb (hm_type hm) htEndOfEarlyData) eqn:T; [|discriminate]. apply byte_eq in T. cbn [negb].
  destruct (hm_body hm); [|discriminate]. intros [= <- <- <- <-]. auto 10.
Qed.
Lemma peek_hash fuel : forall w, w_hash (fst (peek fuel w)) = w_hash w.
Proof.
  induction fuel as [|f IH]; intros w; [reflexivity|]. cbn [peek]. destruct (peekRecordType (in_conn w)) as [c [t|e| |]]; try reflexivity.
  destruct (negb _ && is_wb e); [now rewrite IH|reflexivity].
Qed.
Lemma read_early_hash fuel : forall w, w_hash (fst (read_early fuel w)) = w_hash w.
Proof.
  induction fuel as [|f IH]; intros w; [reflexivity|]. cbn [read_early]. destruct (negb _); [reflexivity|].
  pose proof (peek_hash (S f) w) as Hp. destruct (peek (S f) w) as [w' [t|e| |]]; cbn [fst] in *; try exact Hp.
  destruct (negb _); [exact Hp|]. destruct (readRecord (in_conn w')) as [c [pt|e| |]]; try exact Hp.
  rewrite IH. exact Hp.
Qed.
Lemma server_read_past_ok fuel : forall w nx w' s acts retry, server_read_past fuel w nx = (w', Ok (s, acts, retry)) ->
  w_hash w' = w_hash w /\ retry = false /\ s = nx /\ acts = [].
Proof.
  induction fuel as [|f IH]; intros w nx w' s acts retry; [discriminate|]. cbn [server_read_past].
  pose proof (peek_hash (S f) w) as Hp. destruct (peek (S f) w) as [w1 [t|e| |]]; cbn [fst] in Hp; try discriminate.
  - intros [= <- <- <- <-]. auto.
  - destruct e; try (destruct (is_wb _); discriminate). intros H. apply IH in H. destruct H as (A & B). split; [congruence|exact B].
Qed.
Lemma server_wait_flight2_ok w k w' s acts retry : server_wait_flight2 w k = (w', Ok (s, acts, retry)) ->
  w' = w /\ retry = false /\ acts = [] /\ s = if p_usingClientAuth (sk_params k) then SWaitCert k else SWaitFinished k [].
Proof. unfold server_wait_flight2, done. intros [= <- <- <- <-]. auto. Qed.
Lemma server_wait_cert_ok X w k hm w' s acts retry : server_wait_cert X w k hm = (w', Ok (s, acts, retry)) ->
  exists cert, hm_type hm = htCertificate /\ safeUnmarshal (cert_unmarshal (x_parses X)) (hm_body hm) = Ok cert /\
    w_hash w' = w_hash w ++ hm_marshal hm /\ retry = false /\ acts = [] /\
    s = match ct_list cert with [] => SWaitFinished k [] | _ => SWaitCV k cert end.
Proof.
  unfold server_wait_cert, done. destruct (Byte.eqb (hm_type hm) htCertificate) eqn:T; [|discriminate]. apply byte_eq in T. cbn [negb].
  intros H. inv_pure H as cert H1. injection H as <- <- <- <-. exists cert. auto 10.
Qed.
Lemma server_wait_cv_ok P X o w k cert hm w' s acts retry : server_wait_cv P X o w k cert hm = (w', Ok (s, acts, retry)) ->
  exists cv leaf rest, hm_type hm = htCertificateVerify /\ safeUnmarshal cv_unmarshal (hm_body hm) = Ok cv /\
    map ce_cert (ct_list cert) = leaf :: rest /\ cv_verify P X cv leaf (hash_sum P (sk_suite k) w) = Ok tt /\
    peer_ok o (w_cfg w) (leaf :: rest) [] = true /\
    w_hash w' = w_hash w ++ hm_marshal hm /\ retry = false /\ acts = [] /\ s = SWaitFinished k (leaf :: rest).
Proof.
  unfold server_wait_cv, done. destruct (Byte.eqb (hm_type hm) htCertificateVerify) eqn:T; [|discriminate]. apply byte_eq in T. cbn [negb].
  intros H. inv_pure H as cv H1. destruct (map ce_cert (ct_list cert)) as [|leaf rest]; [discriminate|]. inv_pure H as u H2. destruct u.
  destruct (peer_ok o (w_cfg w) (leaf :: rest) []) eqn:Po; [|discriminate]. injection H as <- <- <- <-. exists cv, leaf, rest. auto 12.
Qed.
Lemma server_wait_finished_ok P w k peer hm w' s acts retry : server_wait_finished P w k peer hm = (w', Ok (s, acts, retry)) ->
  let ps := sk_suite k in
  hm_type hm = htFinished /\ hm_body hm = computeFinishedData P ps (sk_chs k) (digest P (s_hash ps) (w_hash w)) /\
  w_hash w' = w_hash w ++ hm_marshal hm /\ retry = false /\
  s = Connected (mkConn (sk_params k) false ps (deriveSecret P ps (sk_master k) labelResumptionSecret (digest P (s_hash ps) (w_hash w')))
                        (sk_cts k) (sk_sts k) (sk_exporter k) peer []) /\
  acts = [RekeyIn EpochApplicationData (makeTrafficKeys P ps (sk_cts k))].
Proof.
  unfold server_wait_finished, done. destruct (Byte.eqb (hm_type hm) htFinished) eqn:T; [|discriminate]. apply byte_eq in T. cbn [negb].
  intros H. inv_pure H as vd H1. apply fin_unmarshal_ok in H1. destruct H1 as [-> _].
  destruct (beqb _ _) eqn:B; [|discriminate]. apply beqb_eq in B. cbn [negb] in H.
  destruct (receivedFinalFlight _) as [x r]. inv_call H as w1 u H2. apply pair_ok in H2. destruct H2 as [-> H2].
  injection H as <- <- <- <-. cbv zeta. auto 10.
Qed.
