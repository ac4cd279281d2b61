(** What a client that completes has checked and derived. *)
From Verif Require Import Base Frame Record Handshake Crypto CryptoSpec CryptoProofs Messages Pki SigSpec SigProofs Negotiation NegotiationSpec NegotiationProofs Machine MachineProofs Client Server StepProofs Conn ConnSpec ConnProofs RunSpec RunProofs TraceProofs SessionProofs SessionSpec HelloProofs ClientRun.

(** ** The key schedule *)

Lemma derive_rfc P ps secret label t : mac_sized P -> deriveSecret P ps secret (str label) (digest P (s_hash ps) t) = Derive_Secret (hash_of P ps) secret label t.
Proof. intros M. unfold deriveSecret, Derive_Secret, hash_of. cbn [rh_mac rh_hash rh_size]. now rewrite expand_label_rfc by auto using hsize_255. Qed.
Lemma finished_rfc P ps key t : mac_sized P -> computeFinishedData P ps key (digest P (s_hash ps) t) = verify_data (hash_of P ps) key t.
Proof. intros M. unfold computeFinishedData, verify_data, hash_of, labelFinished. cbn [rh_mac rh_hash rh_size]. now rewrite expand_label_rfc by auto using hsize_255. Qed.
Lemma early_rfc P ps key : early_secret P ps key = Early_Secret (hash_of P ps) key.
Proof. reflexivity. Qed.
Lemma secrets_rfc P ps es dh t : mac_sized P -> handshake_secrets P ps es dh (digest P (s_hash ps) t) =
  (client_handshake_secret (hash_of P ps) es dh t, server_handshake_secret (hash_of P ps) es dh t, Master_Secret (hash_of P ps) (Handshake_Secret (hash_of P ps) es dh)).
Proof.
  intros M. unfold handshake_secrets, labelDerived, labelClientHandshakeTrafficSecret, labelServerHandshakeTrafficSecret. rewrite !derive_rfc by exact M. reflexivity.
Qed.

Lemma shares_own P rnd groups : forall n shares own g priv, client_shares P rnd n groups = Ok (shares, own) -> In (g, priv) own ->
  exists i pub, newKeyShare P (rnd i) g = Ok (pub, priv) /\ In (mkKs g pub) shares.
Proof.
  induction groups as [|g0 groups IH]; intros n shares own g priv Hs Hi; cbn [client_shares] in Hs.
  - injection Hs as <- <-. contradiction.
  - inv_bind Hs as [pub priv0] H1. inv_bind Hs as [l dh] H2. injection Hs as <- <-. apply in_app_or in Hi. destruct Hi as [Hi|[[= <- <-]|[]]].
    + destruct (IH _ _ _ _ _ H2 Hi) as (i & p & A & B). exists i, p. split; [exact A|now right].
    + exists n, pub. split; [exact H1|now left].
Qed.
Lemma lookup_in g l priv : dh_lookup g l = Some priv -> In (g, priv) l.
Proof. induction l as [|[k v] l IH]; cbn; [discriminate|]. destruct (N.eqb_spec k g) as [->|]; [intros [= ->]; now left|]. intros. right. auto. Qed.

(** ** Extensions *)

Lemma parse_one_done {S} l t (un : S -> bytes -> res S) found s found' s' : existsb (N.eqb t) found = true -> el_parse_one l t un found s = Ok (found', s') ->
  s' = s /\ found' = found.
Proof.
  intros F. induction l as [|e l IH]; cbn [el_parse_one]; [intros [= -> ->]; auto|]. destruct (_ =? _); [|exact IH]. rewrite F. discriminate.
Qed.
Lemma parse_one_value {S A} (u : bytes -> res (A * nat)) (upd : S -> A -> S) l t found s found' s' : existsb (N.eqb t) found = false ->
  el_parse_one l t (fun s d => do x <- safeUnmarshal u d; Ok (upd s x)) found s = Ok (found', s') ->
  (s' = match ext_value l t u with Some x => upd s x | None => s end) /\ (found' = found \/ found' = t :: found) /\
  (existsb (N.eqb t) found' = match ext_value l t u with Some _ => true | None => false end).
Proof.
  intros F. induction l as [|e l IH]; cbn [el_parse_one]; [intros [= -> ->]; cbn; rewrite F; auto|].
  unfold ext_value in *. cbn [find]. destruct (e_type e =? t); [|exact IH]. rewrite F. intros K. inv_bind K as s1 K1. inv_bind K1 as x K2.
  apply Ok_inj in K1. subst s1. unfold safeUnmarshal in K2. inv_bind K2 as [v n] K3. rewrite K3.
  match type of K2 with (if ?b then _ else _) = _ => destruct b; [discriminate|] end. apply Ok_inj in K2. subst v.
  apply parse_one_done in K; [|cbn [existsb]; now rewrite N.eqb_refl]. destruct K as [-> ->]. cbn [existsb]. rewrite N.eqb_refl. auto.
Qed.
Lemma sh_parse exts found sel share : el_parse exts sh_dsts (None, None) = Ok (found, (sel, share)) ->
  selects exts match sel with Some i => i =? 0 | None => false end share.
Proof.
  unfold el_parse, sh_dsts. cbn [el_parse_all]. intros K. inv_bind K as [f1 s1] K1. inv_bind K as [f2 s2] K2. apply Ok_inj in K. injection K as <- ->.
  apply (parse_one_value psk_server_unmarshal (fun s i => (Some i, snd s))) in K1; [|reflexivity]. destruct K1 as (-> & F1 & _).
  apply (parse_one_value ks_server_unmarshal (fun s k => (fst s, Some k))) in K2; [|destruct F1 as [->| ->]; reflexivity]. destruct K2 as (K2 & _ & _).
  unfold selects, etPreSharedKey, etKeyShare in *. destruct (ext_value exts 41 psk_server_unmarshal), (ext_value exts 51 ks_server_unmarshal); cbn in K2; injection K2 as -> ->; auto.
Qed.

Lemma parse_one_ext {S} l t (un un' : S -> bytes -> res S) : (forall s d, un s d = un' s d) -> forall found s, el_parse_one l t un found s = el_parse_one l t un' found s.
Proof.
  intros Eq. induction l as [|e l IH]; intros found s; [reflexivity|]. cbn [el_parse_one]. destruct (_ =? _); [|apply IH]. destruct (existsb _ _); [reflexivity|]. rewrite Eq.
  destruct (un' s (e_data e)); cbn [bind]; [apply IH|reflexivity..].
Qed.
Lemma ee_parse exts found protos : el_parse exts ee_dsts [] = Ok (found, protos) -> accepts exts (existsb (N.eqb etEarlyData) found) (match protos with p :: _ => p | [] => [] end).
Proof.
  unfold el_parse, ee_dsts. cbn [el_parse_all]. intros K. inv_bind K as [f1 s1] K1. inv_bind K as [f2 s2] K2. apply Ok_inj in K. injection K as <- ->.
  rewrite (parse_one_ext _ _ _ (fun (_ : list bytes) d => do x <- safeUnmarshal alpn_unmarshal d; Ok x)) in K1 by (intros s d; destruct (safeUnmarshal alpn_unmarshal d); reflexivity).
  apply (parse_one_value alpn_unmarshal (fun _ x => x)) in K1; [|reflexivity]. destruct K1 as (-> & F1 & _).
  apply (parse_one_value early_unmarshal (fun s _ => s)) in K2; [|destruct F1 as [->| ->]; reflexivity]. destruct K2 as (K2 & _ & K3).
  unfold accepts, value_or, is_some. split; [exact K3|]. change etALPN with 16 in *. change etEarlyData with 42 in *.
  destruct (ext_value exts 42 early_unmarshal); destruct (ext_value exts 16 alpn_unmarshal) as [[|p l]|]; subst protos; reflexivity.
Qed.

Section Client.
Variables (Q : oracle -> Prop) (E : env) (cfg : config) (psks : cache).
Notation P := (v_prims E).
Notation X := (v_pki E).
Notation H ps := (digest P (s_hash ps)).
Hypothesis sized : mac_sized P.

(** The ServerHello that was accepted at the end of [evs], and the secrets derived from it. *)
Definition accepted (evs : list event) (k : ckeys) : Prop :=
  let h := hash_of P (ck_suite k) in
  exists hellos cookie shares hello shm sh n share es dh, evs = hellos ++ [Sent hello; Received shm] /\ client_retries cfg psks hellos cookie /\
    offers cfg psks cookie shares hello /\ is_type shm 2 /\ is_retry shm = false /\
    sh_unmarshal (hm_body shm) = Ok (sh, n) /\ cipherSuiteMap (sh_suite sh) = Some (ck_suite k) /\ p_suite (ck_params k) = sh_suite sh /\
    (cf_extensionHandler cfg = None -> selects (sh_exts sh) (p_usingPSK (ck_params k)) share) /\ p_usingDH (ck_params k) = is_some share /\
    client_early P (start_cache cfg psks) (cf_serverName cfg) h (p_usingPSK (ck_params k)) es /\ client_dhe Q P h shares share dh /\
    ck_chs k = client_handshake_secret h es dh (transcript (rh_hash h) evs) /\
    ck_shs k = server_handshake_secret h es dh (transcript (rh_hash h) evs) /\
    ck_master k = Master_Secret h (Handshake_Secret h es dh).
Lemma accepted_params evs k p : p_suite p = p_suite (ck_params k) -> p_usingPSK p = p_usingPSK (ck_params k) -> p_usingDH p = p_usingDH (ck_params k) -> accepted evs k -> accepted evs (set_ck_params k p).
Proof. unfold accepted. cbn [set_ck_params ck_suite ck_params ck_chs ck_shs ck_master]. intros -> -> ->. auto. Qed.

Definition hashed (evs : list event) (w : world) (k : ckeys) : Prop := w_hash w = transcript (H (ck_suite k)) evs.
Definition with_cfg (w : world) : Prop := exists l, w_cfg w = set_suites (cfg_init cfg) l.

Lemma ee_accepted evs w k : at_wait_ee Q E cfg psks evs w k -> accepted evs k /\ p_nextProto (ck_params k) = [] /\ hashed evs w k /\ with_cfg w.
Proof.
  intros (evs1 & o & w1 & w2 & ws & shm & sh & n & acts & A & T & U & Rd & Is & N & K & ->).
  destruct A as (evs0 & o0 & w0 & w3 & st & acts0 & Qo & ((F & Kw & [[l L] Q'] & B) & S1 & S2 & S3 & S4) & Cs & K0 & ->).
  pose proof (frame_run _ _ _ _ (frame_client_start w0 P o0 w0 st (frame_refl _)) Cs) as [Fc Fp].
  pose proof (frame_run _ _ _ _ (frame_client_server_hello w1 P o w1 ws shm sh (frame_refl _)) N) as [Gc Gp].
  destruct (client_offers _ _ _ _ _ _ _ _ _ _ Cs (ex_intro _ l L) Q' Kw S1) as (shares & Ws & Of).
  apply client_start_ok in Cs. destruct Cs as (ws' & ch & sending & kk & Ews & _ & _ & M & Wp & Wf & Wh & _ & _ & Wk & We & _ & Hh). injection Ews as <-.
  apply client_server_hello_ok in N. destruct N as (exts & found & selected & share & ps & dh & Er & Ep & Cm & N). cbv zeta in N.
  destruct N as (Hdh & Hw & N).
  assert (is_type (ws_hello ws) 1) as T1. { destruct M as (_ & M & _). exact M. }
  assert (is_retry shm = false) as Rt. { rewrite (retry_iff _ _ _ T U). destruct (beqb _ _) eqn:Bq; [|reflexivity]. now apply beqb_eq in Bq. }
  assert (w_hash w2 = transcript (H ps) ((evs0 ++ [Sent (ws_hello ws)]) ++ [Received shm])) as Ht.
  { rewrite Hw, transcript_received, transcript_sent by exact Rt. rewrite <- !app_assoc, Wf, Wh, (app_assoc (omarshal _)). f_equal.
    apply (B (sh_suite sh)); [|exact Cm]. destruct K0 as (_ & K0 & _). rewrite <- Fc, <- K0. exact Is. }
  unfold hash_sum in N. rewrite Ht, secrets_rfc in N by exact sized.
  destruct N as (Ek & _ & _). injection Ek as ->. 
  match goal with |- accepted _ ?kk /\ _ => set (k := kk) end.
  assert (p_usingPSK (ws_params ws) = false) as Up. { rewrite Wp, S3. reflexivity. }
  split; [|split; [|split]].
  - unfold accepted, k. cbn [ck_suite ck_params ck_chs ck_shs ck_master]. cbv zeta.
    eexists evs0, (st_cookie st), shares, (ws_hello ws), shm, sh, n, share, _, _. split; [now rewrite <- app_assoc|]. split; [exact F|]. split; [exact Of|]. split; [exact T|]. split; [exact Rt|].
    split; [exact U|]. split; [exact Cm|]. split; [reflexivity|]. split; [|split; [|split; [|split; [|split; [reflexivity|split; reflexivity]]]]].
    + intros Nh. cbn [p_usingPSK set_sh_params]. rewrite Up. unfold ext_recv in Er. destruct K0 as (_ & K0 & _).
      rewrite K0, Fc, L in Er. cbn [cf_extensionHandler set_suites] in Er.
      replace (cf_extensionHandler (cfg_init cfg)) with (@None N) in Er. apply Ok_inj in Er. subst exts. apply sh_parse in Ep.
      destruct selected as [i|]; [rewrite orb_false_r|]; exact Ep.
    + cbn [p_usingDH set_sh_params]. destruct share; [reflexivity|]. rewrite Wp, S3. reflexivity.
    + cbn [p_usingPSK set_sh_params]. rewrite Up.
      assert (client_early P (start_cache cfg psks) (cf_serverName cfg) (hash_of P ps) true (ws_earlySecret ws)) as Ht'.
      { change (start_cache cfg psks) with (start_psks cfg psks). rewrite <- Q', <- S1. destruct (ws_psk ws) as [key|]; symmetry in Wk.
        - destruct We as (s & Sm & -> & _). eapply early_psk; eauto.
        - destruct We as [-> _]. now apply early_gap. }
      destruct selected as [i|]; [|constructor]. rewrite orb_false_r. destruct (i =? 0); [exact Ht'|constructor].
    + destruct share as [ks|]; [|rewrite Hdh; apply dhe_none]. destruct Hdh as (priv & Lk & Hk). apply lookup_in in Lk.
      destruct (shares_own _ _ _ _ _ _ _ _ Ws Lk) as (i & pub & Ns & Is').
      destruct (keyAgreement P (ks_group ks) (ks_data ks) priv) as [z|e| |] eqn:Ka; try contradiction; rewrite Hk;
        [eapply dhe_share|eapply dhe_failed]; try exact Ka; try exact Is'; exists o0, i; (split; [exact Qo|exact Ns]).
  - unfold k. cbn [ck_params p_nextProto set_sh_params]. rewrite Wp, S3. reflexivity.
  - unfold hashed, k. cbn [ck_suite]. destruct K as (-> & _). exact Ht.
  - exists l. destruct K as (_ & -> & _). destruct K0 as (_ & K0 & _). congruence.
Qed.

(** After the ServerHello: the events so far end with messages of other types. *)
Definition since (evs : list event) (w : world) (k : ckeys) (flight : list event) : Prop :=
  exists evs0, evs = evs0 ++ flight /\ accepted evs0 k /\ hashed evs w k /\ with_cfg w.
Lemma hashed_more evs w w' k m : hashed evs w k -> w_hash w' = w_hash w ++ hm_marshal m -> is_retry m = false -> hashed (evs ++ [Received m]) w' k.
Proof. unfold hashed. intros A B C. rewrite transcript_received by exact C. congruence. Qed.

(** What the client takes from EncryptedExtensions. *)
Definition reported (eem : hmsg) (k : ckeys) : Prop :=
  is_type eem 8 /\ exists exts, safeUnmarshal ee_unmarshal (hm_body eem) = Ok exts /\
    (cf_extensionHandler cfg = None -> accepts exts (p_usingEarlyData (ck_params k)) (p_nextProto (ck_params k))).
Lemma since_ee evs w s : after_ee Q E cfg psks evs w s -> exists k eem, is_type eem 8 /\ reported eem k /\ since evs w k [Received eem] /\
  (s = CWaitCertCR k /\ p_usingPSK (ck_params k) = false \/ exists certs, s = CWaitFinished k certs None [] [] /\ p_usingPSK (ck_params k) = true).
Proof.
  intros (evs0 & o & w0 & w1 & k0 & eem & acts & A & N & (K1 & K2 & _) & ->). apply ee_accepted in A. destruct A as (A & Np & Hh & [l L]).
  pose proof (frame_run _ _ _ _ (frame_client_wait_ee w0 P o w0 k0 eem (frame_refl _)) N) as [Fc _].
  apply client_wait_ee_ok in N. destruct N as (exts & exts' & found & protos & T & Ue & Er & Ep & Hw & _ & N). cbv zeta in N. destruct N as [-> _].
  set (k := set_ck_params k0 _). exists k, eem. split; [exact T|]. split; [|split].
  - split; [exact T|]. exists exts. split; [exact Ue|]. intros Nh. unfold ext_recv in Er. rewrite L in Er. cbn [cf_extensionHandler set_suites] in Er.
    change (cf_extensionHandler (cfg_init cfg)) with (cf_extensionHandler cfg) in Er. rewrite Nh in Er. apply Ok_inj in Er. subst exts'. apply ee_parse in Ep.
    unfold k. cbn [ck_params set_ck_params p_usingEarlyData p_nextProto set_ee_params]. rewrite Np. exact Ep.
  - exists evs0. split; [reflexivity|]. split; [apply accepted_params; [reflexivity|reflexivity|reflexivity|exact A]|]. split; [|exists l; congruence].
    change (hashed (evs0 ++ [Received eem]) w k0). eapply hashed_more; [exact Hh|congruence|]. eapply not_retry; [exact T|reflexivity].
  - change (p_usingPSK (ck_params k)) with (p_usingPSK (ck_params k0)). destruct (p_usingPSK (ck_params k0)); [right; eauto|left; auto].
Qed.

Lemma with_cfg_kept w w' : with_cfg w -> w_cfg w' = w_cfg w -> with_cfg w'.
Proof. intros [l L] Eq. exists l. congruence. Qed.
Lemma chain_ok o w leaf rest chains : Q o -> with_cfg w -> (if cf_insecureSkipVerify (w_cfg w) then chains = []
     else x_chain X (cf_rootCAs (w_cfg w)) (cf_serverName (w_cfg w)) (cfg_time o (w_cfg w)) leaf rest = Some chains) ->
    peer_ok o (w_cfg w) (leaf :: rest) chains = true -> chain_accepted Q X cfg leaf rest chains.
Proof.
  intros Qo [l L]. rewrite L. unfold peer_ok, chain_accepted, cfg_time. cbn [cf_insecureSkipVerify cf_rootCAs cf_serverName cf_verifyPeerCertificate cf_time set_suites cfg_init]. intros A B. exists o. split; [exact Qo|]. split; [exact A|].
  destruct (cf_verifyPeerCertificate cfg); [exact B|exact I].
Qed.
Lemma since_cv evs w k cert cr : at_wait_cv Q E cfg psks evs w k cert cr -> exists eem before certm, hd_error before = Some (Received eem) /\ reported eem k /\ Forall (fun e => exists m, e = Received m /\ (is_type m 8 \/ is_type m 13)) before /\
  is_type certm 11 /\ safeUnmarshal (cert_unmarshal (x_parses X)) (hm_body certm) = Ok cert /\ since evs w k (before ++ [Received certm]) /\ p_usingPSK (ck_params k) = false.
Proof.
  intros (evs0 & w0 & w1 & m & (K1 & K2 & _) & -> & [(k0 & A & N)|(cr0 & A & N)]).
  - apply since_ee in A. destruct A as (k' & eem & Te & Re & (evs1 & -> & Ac & Hh & Wc) & [[Ek Up]|(certs & Ek & _)]); [|discriminate]. injection Ek as <-.
    pose proof (frame_run _ _ _ _ (frame_client_wait_cert_cr w0 X w0 k0 m (frame_refl _)) N) as [Fc _].
    apply client_wait_cert_cr_ok in N. destruct N as (Hw & _ & _ & [(c & T & U & Es)|(c & T & _ & _ & Es)]); [|discriminate]. injection Es as -> <- ->.
    exists eem, [Received eem], m. split; [reflexivity|]. split; [exact Re|]. split; [constructor; [eauto|constructor]|]. split; [exact T|]. split; [exact U|]. split; [|exact Up].
    exists evs1. split; [now rewrite <- app_assoc|]. split; [exact Ac|]. split; [|eapply with_cfg_kept; [exact Wc|congruence]].
    eapply hashed_more; [exact Hh|congruence|]. eapply not_retry; [exact T|reflexivity].
  - destruct A as (evs1 & w2 & w3 & k0 & crm & A & N0 & (L1 & L2 & _) & ->).
    apply since_ee in A. destruct A as (k' & eem & Te & Re & (evs2 & -> & Ac & Hh & Wc) & [[Ek Up]|(certs & Ek & _)]); [|discriminate]. injection Ek as <-.
    pose proof (frame_run _ _ _ _ (frame_client_wait_cert_cr w2 X w2 k0 crm (frame_refl _)) N0) as [Fc0 _].
    pose proof (frame_run _ _ _ _ (frame_client_wait_cert w0 X w0 k cr0 m (frame_refl _)) N) as [Fc _].
    apply client_wait_cert_cr_ok in N0. destruct N0 as (Hw0 & _ & _ & [(c & T0 & _ & Es)|(c & T0 & _ & _ & Es)]); [discriminate|]. injection Es as -> ->.
    apply client_wait_cert_ok in N. destruct N as (Hw & _ & _ & c' & T & U & Es). injection Es as <- _.
    exists eem, [Received eem; Received crm], m. split; [reflexivity|]. split; [exact Re|]. split; [constructor; [eauto|constructor; [eauto|constructor]]|]. split; [exact T|]. split; [exact U|]. split; [|exact Up].
    exists evs2. split; [now rewrite <- !app_assoc|]. split; [apply accepted_params; [reflexivity|reflexivity|reflexivity|exact Ac]|].
    split; [|eapply with_cfg_kept; [exact Wc|congruence]].
    change (hashed (((evs2 ++ [Received eem]) ++ [Received crm]) ++ [Received m]) w k0).
    eapply hashed_more; [eapply (hashed_more _ w2 w0); [exact Hh|congruence|]|congruence|]; eapply not_retry; try eassumption; reflexivity.
Qed.
Lemma since_finished evs w k certs cr peer chains : at_wait_finished Q E cfg psks evs w (CWaitFinished k certs cr peer chains) ->
  exists evs0 eem flight, hd_error flight = Some (Received eem) /\ reported eem k /\ since evs w k flight /\ evs = evs0 ++ flight /\ accepted evs0 k /\
  (if p_usingPSK (ck_params k) then exists eem, flight = [Received eem] /\ is_type eem 8 /\ peer = [] /\ chains = []
   else server_certified Q P X cfg (ck_suite k) evs0 flight peer chains).
Proof.
  intros [A|(evs0 & o & w0 & w1 & k0 & cert & cr0 & m & Qo & A & N & (K1 & K2 & _) & ->)].
  - apply since_ee in A. destruct A as (k' & eem & Te & Re & S & [[Ek Up]|(cs & Ek & Up)]); [discriminate|]. injection Ek as <- -> _ -> ->.
    destruct S as (evs1 & -> & Ac & R). exists evs1, eem, [Received eem]. split; [reflexivity|]. split; [exact Re|]. split; [exists evs1; auto|]. split; [reflexivity|]. split; [exact Ac|]. rewrite Up. eauto.
  - apply since_cv in A. destruct A as (eem & before & certm & Hb & Re & Fb & Tc & Uc & (evs1 & -> & Ac & Hh & Wc) & Up).
    pose proof (frame_run _ _ _ _ (frame_client_wait_cv w0 P X o w0 k0 cert cr0 m (frame_refl _)) N) as [Fc _].
    apply client_wait_cv_ok in N. destruct N as (Hw & _ & _ & cv & leaf & rest & chains' & T & U & Mc & V & Ch & Po & Es). injection Es as -> _ _ -> ->.
    exists evs1, eem, (before ++ [Received certm; Received m]). split; [destruct before; [discriminate|exact Hb]|]. split; [exact Re|]. split; [|split; [now rewrite <- !app_assoc|split; [exact Ac|]]].
    + exists evs1. split; [now rewrite <- !app_assoc|]. split; [exact Ac|]. split; [|eapply with_cfg_kept; [exact Wc|congruence]].
      eapply hashed_more; [exact Hh|congruence|]. eapply not_retry; [exact T|reflexivity].
    + rewrite Up. exists before, certm, m, cert, cv, leaf, rest. split; [reflexivity|]. split; [exact Fb|]. split; [exact Tc|]. split; [exact T|]. split; [exact Uc|]. split; [exact U|].
      split; [exact Mc|]. split; [reflexivity|]. split; [eapply chain_ok; eauto|]. apply cv_verify_iff. rewrite <- Hh. exact V.
Qed.

(** The whole of a completed handshake. *)
Theorem client_session evs w c : at_connected Q E cfg psks evs w c -> client_run Q P X cfg psks evs c.
Proof.
  unfold client_run.
  intros (evs1 & o & w0 & w1 & k & certs & cr & peer & chains & fin & acts & A & N & (K1 & K2 & _) & ->).
  apply since_finished in A. destruct A as (evs0 & eem & flight & He8 & (Te8 & exts & Ue & Rep) & (_ & _ & _ & Hh & _) & -> & Ac & Au).
  apply client_wait_finished_ok in N. destruct N as (w2 & w3 & eoed & auth & finm & T & N). cbv zeta in N.
  destruct N as (Bf & Ee & Ea & Tf & Bm & Hw & _ & Es & -> & Hw').
  apply client_eoed_ok in Ee. destruct Ee as [He He5]. apply client_auth_ok in Ea. destruct Ea as (Ha & _ & Ha5). cbn [w_hash hash_write set_hash] in He.
  injection Es as ->. cbn [sc_suite sc_params sc_isClient sc_peer sc_chains].
  destruct Ac as (hellos & cookie & shares & hello & shm & sh & n & share & es & dh & -> & F & T1 & T2 & Rt & U & Cm & Ps & Se & Ud & Ce & Cd & E1 & E2 & E3).
  exists hellos, cookie, shares, hello, shm, eem, flight, fin, (sent_of eoed ++ sent_of auth), finm, sh, n, share, exts, es, dh.
  set (h := hash_of P (ck_suite k)) in *. set (to_hello := hellos ++ [Sent hello; Received shm]) in *. cbv zeta.
  assert (is_retry fin = false) as Rf. { eapply not_retry; [exact T|reflexivity]. }
  assert (w_hash w0 ++ hm_marshal fin = transcript (rh_hash h) (to_hello ++ flight ++ [Received fin])) as H4.
  { rewrite app_assoc, transcript_received by exact Rf. now rewrite Hh. }
  assert (forall l, to_hello ++ flight ++ Received fin :: map Sent l = (to_hello ++ flight ++ [Received fin]) ++ map Sent l) as Re.
  { intros l. rewrite <- !app_assoc. reflexivity. }
  assert (w_hash w3 = transcript (rh_hash h) (to_hello ++ flight ++ Received fin :: map Sent (sent_of eoed ++ sent_of auth))) as H5.
  { rewrite Ha, He, H4, Re, transcript_sents, marshals_app. symmetry. apply app_assoc. }
  assert ((to_hello ++ flight) ++ Received fin :: map Sent (sent_of (eoed ++ auth ++ [QueueHandshakeMessage finm; SendQueuedHandshake;
      RekeyIn EpochApplicationData (makeTrafficKeys P (ck_suite k) (deriveSecret P (ck_suite k) (ck_master k) labelServerApplicationTrafficSecret (H (ck_suite k) (w_hash w0 ++ hm_marshal fin))));
      RekeyOut EpochApplicationData (makeTrafficKeys P (ck_suite k) (deriveSecret P (ck_suite k) (ck_master k) labelClientApplicationTrafficSecret (H (ck_suite k) (w_hash w0 ++ hm_marshal fin))))])) =
    to_hello ++ flight ++ Received fin :: map Sent ((sent_of eoed ++ sent_of auth) ++ [finm])) as Ev.
  { rewrite !sent_app. cbn [sent_of]. now rewrite <- !app_assoc. }
  rewrite Ev. clear Ev.
  assert (w_hash w1 = transcript (rh_hash h) (to_hello ++ flight ++ Received fin :: map Sent ((sent_of eoed ++ sent_of auth) ++ [finm]))) as H6.
  { rewrite Hw, H5, <- transcript_sent. f_equal. rewrite (map_app Sent (sent_of eoed ++ sent_of auth)). cbn [map]. now rewrite <- !app_assoc, <- app_comm_cons. }
  split; [reflexivity|]. split; [exact F|]. split; [exact T1|]. split; [exact T2|]. split; [exact Rt|]. split; [exact U|]. split; [exact Cm|]. split; [exact Ps|].
  split; [exact Se|]. split; [exact Ud|]. split; [exact Ce|]. split; [exact Cd|]. split; [exact He8|]. split; [exact Te8|]. split; [exact Ue|]. split; [exact Rep|].
  split.
  { apply Forall_app. split.
    - destruct (p_usingEarlyData (ck_params k)); [destruct He5 as (m & (_ & Tm & _) & ->); cbn [sent_of]; constructor; [left; exact Tm|constructor]|subst eoed; constructor].
    - destruct (p_usingClientAuth (ck_params k)); [|subst auth; constructor].
      destruct Ha5 as (c & _ & schemes & _ & [(certm & -> & Tc & _)|(certm & cvm & cert & scheme & cv & -> & _ & Tc & _ & _ & Tv & _)]); cbn [sent_of].
      + constructor; [right; left; exact Tc|constructor].
      + constructor; [right; left; exact Tc|]. constructor; [right; right; exact Tv|constructor]. }
  split; [exact T|].
  split; [rewrite Bf, Hh, finished_rfc, E2 by exact sized; reflexivity|].
  split; [exact Tf|]. split; [rewrite Bm, H5, E1; rewrite finished_rfc by exact sized; reflexivity|].
  split; [|split; [reflexivity|]].
  - unfold session_secrets. cbn [sc_cts sc_sts sc_exporter sc_resumption]. rewrite H4, H6, E3.
    unfold labelClientApplicationTrafficSecret, labelServerApplicationTrafficSecret, labelExporterSecret, labelResumptionSecret.
    rewrite <- !(derive_rfc P (ck_suite k)) by exact sized. auto.
  - exact Au.
Qed.

Lemma client_connected input evs c k : steady Q E (newConn cfg psks true input) evs c -> c_hState c = Some (Connected k) -> client_run Q P X cfg psks evs k.
Proof.
  intros S Hs. pose proof (steady_path _ _ _ _ _ _ _ _ S) as O. unfold on_path in O. rewrite Hs in O. destruct O as (w & Pa & _).
  apply client_path in Pa; [|reflexivity]. cbn [client_at] in Pa. now apply client_session in Pa.
Qed.
Theorem client_completed input evs c : steady Q E (newConn cfg psks true input) evs c -> c_complete c = true ->
  exists k, client_run Q P X cfg psks evs k /\ same_session k (c_state c).
Proof.
  intros S Cc. pose proof (steady_settled _ _ _ _ _ _ _ _ S) as Se. pose proof (client_connected input evs c) as O.
  pose proof S as S0. apply steady_used, inv_used in S. rewrite (inv_complete _ _ _ S) in Cc. unfold is_connected in Cc.
  destruct (c_hState c) as [s|] eqn:Hs; [|discriminate]. destruct s as [| | | | | | | | | | | | | | |k]; try discriminate. exists k. split; [now apply O|now apply Se].
Qed.
End Client.
