(** C26 at the server: what the binder of a PSK that the server uses covers. *)
From Verif Require Import Base Syntax Frame Record Handshake Crypto CryptoSpec CryptoProofs PropCrypto Messages MessageSpec MessageProofs MessageProofs2 MessageProofs3 PropDecode Pki Negotiation NegotiationSpec NegotiationProofs
  Machine Cookie Client Server StepProofs HelloProofs Conn RunSpec SessionSpec ClientSession ServerSession Toy PropMessages.

Lemma parsed_one {S} l t (un : S -> bytes -> res S) : forall found s found' s', el_parse_one l t un found s = Ok (found', s') ->
  forall e, In e l -> e_type e = t -> exists s1 s2, un s1 (e_data e) = Ok s2.
Proof.
  induction l as [|x l IH]; intros found s found' s' K e I T; [destruct I|]. cbn [el_parse_one] in K. destruct I as [->|I].
  - rewrite T, N.eqb_refl in K. destruct (existsb _ _); [discriminate|]. inv_bind K as s1 K1. eauto.
  - destruct (e_type x =? t); [|eauto]. destruct (existsb _ _); [discriminate|]. inv_bind K as s1 K1. eauto.
Qed.
Lemma parsed_all {S} l (dsts : list (N * (S -> bytes -> res S))) : forall found s found' s', el_parse_all l dsts found s = Ok (found', s') ->
  forall t un e, In (t, un) dsts -> In e l -> e_type e = t -> exists s1 s2, un s1 (e_data e) = Ok s2.
Proof.
  induction dsts as [|[t0 u0] dsts IH]; intros found s found' s' K t un e I J T; [destruct I|]. cbn [el_parse_all] in K. inv_bind K as [f1 s1] K1.
  destruct I as [[= -> ->]|I]; [eapply parsed_one; eauto|eapply IH; eauto].
Qed.

(** The pre_shared_key extension of a ClientHello that the server parses and truncates: the last one, and the only one. *)
Lemma psk_last ch found x hello : el_parse (ch_exts ch) ch_dsts no_chexts = Ok (found, x) -> ch_truncated ch = Ok hello ->
  exists front e, ch_exts ch = front ++ [mkExt 41 e] /\ psk_client_unmarshal e = Ok (cx_psk x, List.length e).
Proof.
  intros K T. unfold ch_truncated in T. destruct (rev (ch_exts ch)) as [|e r] eqn:R; [discriminate|]. destruct (N.eqb_spec (e_type e) etPreSharedKey) as [Te|]; [|discriminate]. clear T.
  assert (Ex : ch_exts ch = rev r ++ [e]) by (rewrite <- (rev_involutive (ch_exts ch)), R; reflexivity).
  exists (rev r), (e_data e). split. { rewrite Ex. destruct e as [t d]. cbn in Te. now subst t. }
  assert (U : exists v, safeUnmarshal psk_client_unmarshal (e_data e) = Ok v).
  { unfold el_parse in K. edestruct (parsed_all _ _ _ _ _ _ K etPreSharedKey) with (e := e) as (s1 & s2 & U).
    - unfold ch_dsts. do 6 right. left. reflexivity.
    - rewrite Ex. apply in_or_app. right. now left.
    - exact Te.
    - cbn beta in U. inv_bind U as v U1. eauto. }
  destruct U as (v & U). apply safe_all in U. rewrite U. do 2 f_equal.
  pose proof (ch_parse _ _ _ K) as (_ & _ & _ & _ & _ & Cp & _). rewrite Cp. unfold value_or. rewrite value_of_type.
  pose proof (proj2 (parse_spec _ _ _ _ _ K 41)) as L.
  assert (O : of_type 41 (ch_exts ch) = [e]).
  { rewrite Ex in L |- *. unfold of_type in *. rewrite filter_app in *. cbn [filter] in *. change 41 with etPreSharedKey in *. rewrite Te, N.eqb_refl in *. rewrite app_length in L. cbn [List.length] in L.
    destruct (filter _ (rev r)) as [|? ?]; [reflexivity|]. cbn [List.length] in L. exfalso. assert (In etPreSharedKey (map fst ch_dsts)) by (cbn; tauto). specialize (L H). lia. }
  rewrite O, U. reflexivity.
Qed.
Lemma truncated_received version ch found x body hello : safeUnmarshal (ch_unmarshal version) body = Ok ch -> ch_version ch = version -> version = 0x0303 \/ version = 0xfefd -> ch_session ch = [] ->
  el_parse (ch_exts ch) ch_dsts no_chexts = Ok (found, x) -> ch_truncated ch = Ok hello -> tls_message x01 body = hello ++ vector 2 (binders_wire (snd (cx_psk x))).
Proof.
  intros U V Vv Se K T. destruct (psk_last _ _ _ _ K T) as (front & e & Ex & Pe).
  assert (Hb : ch_marshal ch = Ok body).
  { apply safe_all in U. apply hello_exact in U. rewrite firstn_all in U. destruct U as [Fi W]. apply ch_is. split.
    - unfold hello_fits in Fi. unfold ch_fits. apply andb_prop in Fi. destruct Fi as [Fi F5]. apply andb_prop in Fi. destruct Fi as [Fi F4]. apply andb_prop in Fi. destruct Fi as [Fi F3].
      apply andb_prop in Fi. destruct Fi as [Fi F2]. rewrite Fi, F3, F4, F5. reflexivity.
    - rewrite W. unfold hello_wire, ch_wire. rewrite Se, V. destruct Vv as [->| ->]; reflexivity. }
  destruct (cx_psk x) as [ids bs].
  assert (He : psk_client_marshal ids bs = Ok e /\ List.length ids = List.length bs).
  { assert (xb_unmarshal (XPskClient [] []) e = Ok (XPskClient ids bs, List.length e)) as X. { cbn [xb_unmarshal]. rewrite Pe. reflexivity. }
    split.
    - apply (xb_is (XPskClient ids bs) e). apply xb_decoded in X; [|intros name; discriminate]. destruct X as [A B]. rewrite firstn_all in B. auto.
    - unfold psk_client_unmarshal in Pe. inv_bind Pe as [[i b] n] D. destruct (Nat.eqb_spec (List.length i) (List.length b)) as [L|]; [|discriminate]. cbn [negb] in Pe. apply Ok_inj in Pe. congruence. }
  destruct He as [He L]. destruct (truncated_prefix ch front e ids bs body Ex He L Hb) as (pre & T' & Em). rewrite T in T'. apply Ok_inj in T'. now subst pre.
Qed.

Lemma server_binder P X o w hm w' n acts retry : mac_sized P -> cf_extensionHandler (w_cfg w) = None ->
  server_start P X o w hm = (w', Ok (SNegotiated n, acts, retry)) -> p_usingPSK (n_params n) = true ->
  exists ch front e ids binders id b key s base hello, let version := wireVersion (x_in (w_ctx w)) in
    safeUnmarshal (ch_unmarshal version) (hm_body hm) = Ok ch /\ ch_exts ch = front ++ [mkExt 41 e] /\ safeUnmarshal psk_client_unmarshal e = Ok (ids, binders) /\
    nth_error ids (n_selectedPSK n) = Some id /\ nth_error binders (n_selectedPSK n) = Some b /\
    cache_get (w_psks w) (hexEncode (pi_identity id)) = Some key /\ cipherSuiteMap (psk_suite key) = Some s /\ n_pskSecret n = psk_key key /\
    b = binder8446 (digest P (s_hash s)) (hmac P (s_hash s)) (hsize (s_hash s)) (psk_isResumption key) (psk_key key) (base ++ hello) /\
    (ext_value (ch_exts ch) 44 cookie_unmarshal = None -> base = []) /\
    (ch_session ch = [] -> tls_message x01 (hm_body hm) = hello ++ vector 2 (binders_wire binders)).
Proof.
  intros M Nh H Up. cbv zeta. apply server_start_ok in H.
  destruct H as (ch & exts & found & x & v & first & dhs & dh & chosen & suite & hrr & again & w1 & w2 & w3 & Ty & U & V & Xr & K & _ & _ & Ck & _ & _ & Ps & H).
  unfold ext_recv in Xr. rewrite Nh in Xr. apply Ok_inj in Xr. subst exts.
  cbv zeta in H. destruct (pskModeNegotiation _ _ _) as [usingDH usingPSK] eqn:Pm. destruct H as (_ & _ & _ & _ & _ & H).
  destruct again; [destruct H as [H _]; discriminate|]. destruct H as (_ & cert & scheme & proto & _ & _ & _ & _ & H).
  destruct (earlyDataNegotiation _ _ _) as [usingEarly rejected]. injection H as ->. cbn [n_params n_selectedPSK n_pskSecret p_usingPSK] in *. subst usingPSK.
  apply server_psk_ok in Ps. destruct Ps as [_ Ps]. destruct (cx_psk x) as [ids binders] eqn:Cp.
  assert (C : exists j key s, chosen = Some (j, key, s)).
  { destruct chosen as [[[j key] s]|]; [eauto|]. exfalso. unfold pskModeNegotiation in Pm. cbn in Pm. destruct (match dh with Some _ => true | None => false end); cbn in Pm; rewrite ?Bool.andb_false_r in Pm; discriminate. }
  destruct C as (j & key & s & ->). destruct ids as [|i0 ids]; [discriminate|]. destruct Ps as (base & trunc & Tr & Fb & Pn).
  assert (Sx : set_exts ch (ch_exts ch) = ch) by (destruct ch; reflexivity). rewrite Sx in Tr.
  destruct (psk_accept _ _ _ _ _ _ _ _ _ M Pn) as (id & b & N1 & N2 & G & Cs & B & _).
  destruct (psk_last _ _ _ _ K Tr) as (front & e & Ex & Pe). rewrite Cp in Pe.
  exists ch, front, e, (i0 :: ids), binders, id, b, key, s, base, trunc.
  split; [exact U|]. split; [exact Ex|]. split. { unfold safeUnmarshal. rewrite Pe. cbn [bind]. now rewrite Nat.eqb_refl. }
  split; [exact N1|]. split; [exact N2|]. split; [exact G|]. split; [exact Cs|]. split; [reflexivity|]. split; [exact B|]. split.
  - intros Nc. pose proof (ch_parse _ _ _ K) as Hr. assert (Cc : cx_cookie x = []). { destruct Hr as (_ & _ & _ & _ & _ & _ & _ & _ & Hr). rewrite Hr. unfold value_or. now rewrite Nc. }
    unfold cookie_checked in Ck. rewrite Cc in Ck. subst first. exact Fb.
  - intros Se. change binders with (snd (i0 :: ids, binders)). rewrite <- Cp. eapply truncated_received; eauto. unfold wireVersion. destruct (hl_datagram _); [now right|now left].
Qed.

(** The server uses a PSK only if the binder presented with its identity is right for the ClientHello up to the binders
    (in the form it has in TLS), after what a cookie stands for. *)
Theorem C26_server : forall P X o w hm w' n acts retry, mac_sized P -> cf_extensionHandler (w_cfg w) = None ->
  server_start P X o w hm = (w', Ok (SNegotiated n, acts, retry)) -> p_usingPSK (n_params n) = true ->
  exists ch front e ids binders id b key s base hello, let version := wireVersion (x_in (w_ctx w)) in
    safeUnmarshal (ch_unmarshal version) (hm_body hm) = Ok ch /\ ch_exts ch = front ++ [mkExt 41 e] /\ safeUnmarshal psk_client_unmarshal e = Ok (ids, binders) /\
    nth_error ids (n_selectedPSK n) = Some id /\ nth_error binders (n_selectedPSK n) = Some b /\
    cache_get (w_psks w) (hexEncode (pi_identity id)) = Some key /\ cipherSuiteMap (psk_suite key) = Some s /\ n_pskSecret n = psk_key key /\
    b = binder8446 (digest P (s_hash s)) (hmac P (s_hash s)) (hsize (s_hash s)) (psk_isResumption key) (psk_key key) (base ++ hello) /\
    (ext_value (ch_exts ch) 44 cookie_unmarshal = None -> base = []) /\
    (ch_session ch = [] -> tls_message x01 (hm_body hm) = hello ++ vector 2 (binders_wire binders)).
Proof. exact server_binder. Qed.
Print Assumptions C26_server.

(** ** Cases *)

(** A ClientHello that offers a PSK for use without (EC)DHE, with a cookie or none; its binder is what the server
    computes for the context [base] and the hello without its session id. *)
Definition suite26 : suite := mkSuite TLS_AES_128_GCM_SHA256 SHA256 16 12.
Definition ok_or {A} (d : A) (r : res A) : A := match r with Ok a => a | _ => d end.
Definition offer26 (binder : bytes) : bytes := ok_or [] (psk_client_marshal [mkPid (str "other") 0; mkPid (str "id") 0] [repeat x00 32; binder]).
Definition hello26 (session cookie binder : bytes) : clientHello :=
  mkCh 0x0303 (be 32 5) session [TLS_AES_128_GCM_SHA256]
    ([mkExt 43 (ok_or [] (versions_client_marshal [772])); mkExt 45 (ok_or [] (modes_marshal [0]))] ++ match cookie with [] => [] | _ => [mkExt 44 (ok_or [] (cookie_marshal cookie))] end ++ [mkExt 41 (offer26 binder)]).
Definition binder26 (session base cookie : bytes) : bytes :=
  binderOf toy_prims suite26 toy_psk (base ++ ok_or [] (ch_truncated (hello26 session cookie (repeat x00 32)))).
Definition message26 (session base cookie : bytes) : hmsg :=
  let body := hello_wire false (hello26 session cookie (binder26 session base cookie)) in mkHm htClientHello 0 body false 0 (len body) None.
Definition before26 (session base cookie : bytes) : bytes :=
  let m := tls_message x01 (hm_body (message26 session base cookie)) in firstn (List.length m - 68) m.
Definition world26 (cfg : config) : world := c_world (fst (handshakeSetup toy_env (toy_oracle 1) (newConn cfg server_psks false []))).
Definition start26 (cfg : config) (m : hmsg) := server_start toy_prims (v_pki toy_env) (toy_oracle 1) (world26 cfg) m.
Definition server26 (cfg : config) (m : hmsg) : option snegotiated := match snd (start26 cfg m) with Ok (SNegotiated n, _, _) => Some n | _ => None end.
Lemma right26 context : binder8446 (digest toy_prims SHA256) (hmac toy_prims SHA256) (hsize SHA256) (psk_isResumption toy_psk) (psk_key toy_psk) context = binderOf toy_prims suite26 toy_psk context.
Proof. symmetry. exact (binder_rfc toy_prims suite26 toy_psk context toy_prims_sized). Qed.
(** A server that asks for cookies. *)
Definition config26 : config :=
  mkCfg toy_name false 0 0 0 true true None (Some 7) None false None None false [] None [TLS_AES_128_GCM_SHA256] [P256] [] [] (Some 1) [] true false None.
Definition cookie26 : bytes := x42 :: ok_or [] (co_marshal (mkCookie TLS_AES_128_GCM_SHA256 (be 32 77) [])).
Definition retry26 (suite : N) : bytes := match snd (generateHRR (toy_oracle 1) (world26 config26) suite [] cookie26) with Ok m => hm_marshal m | _ => [] end.
Definition base26 : bytes := hm_marshal (message_hash (be 32 77)) ++ retry26 0.
(** The PSK [key] that a server has selected from a ClientHello [hm], its binder [b], and the hello up to the binders. *)
Definition selected26 (w : world) (hm : hmsg) (n : snegotiated) (key : psk) (b hello : bytes) : Prop :=
  exists ch front e ids binders id, safeUnmarshal (ch_unmarshal (wireVersion (x_in (w_ctx w)))) (hm_body hm) = Ok ch /\ ch_exts ch = front ++ [mkExt 41 e] /\
    safeUnmarshal psk_client_unmarshal e = Ok (ids, binders) /\ nth_error ids (n_selectedPSK n) = Some id /\ nth_error binders (n_selectedPSK n) = Some b /\
    cache_get (w_psks w) (hexEncode (pi_identity id)) = Some key /\ n_pskSecret n = psk_key key /\ tls_message x01 (hm_body hm) = hello ++ vector 2 (binders_wire binders).
Definition negotiated26 (cfg : config) (m : hmsg) : snegotiated :=
  match server26 cfg m with Some n => n | None => mkNeg (mkPar false false false false false false 0 [] []) 0 [] None [] [] 0 None 0 [] None None m end.
Lemma selects26 cfg m : server26 cfg m <> None ->
  exists w' acts retry, server_start toy_prims (v_pki toy_env) (toy_oracle 1) (world26 cfg) m = (w', Ok (SNegotiated (negotiated26 cfg m), acts, retry)).
Proof.
  intros A. unfold negotiated26. unfold server26, start26 in *. destruct (server_start _ _ _ _ _) as [w' [[[st acts] retry]|e| |]]; try (exfalso; now apply A). cbn [snd] in *.
  destruct st; try (exfalso; now apply A). exists w', acts, retry. reflexivity.
Qed.

(** A plain ClientHello, which meets the conditions of the theorem; the second identity is used. *)
Example C26_server_case : mac_sized toy_prims /\ cf_extensionHandler (w_cfg (world26 psk_config)) = None /\
  exists w' n acts retry, server_start toy_prims (v_pki toy_env) (toy_oracle 1) (world26 psk_config) (message26 [] [] []) = (w', Ok (SNegotiated n, acts, retry)) /\
    p_usingPSK (n_params n) = true /\ n_selectedPSK n = 1%nat.
Proof.
  split; [exact toy_prims_sized|]. split; [vm_compute; reflexivity|].
  edestruct (selects26 psk_config (message26 [] [] [])) as (w' & acts & retry & S); [vm_compute; discriminate|].
  exists w', (negotiated26 psk_config (message26 [] [] [])), acts, retry. split; [exact S|]. split; vm_compute; reflexivity.
Qed.

(** With a session id (as browsers send) the binder is checked for a hello without it, which the client did not send. *)
Definition id26 : bytes := repeat x09 32.
Lemma session_id26 : exists P X o w hm w' n acts retry key b hello s, mac_sized P /\ cf_extensionHandler (w_cfg w) = None /\
  server_start P X o w hm = (w', Ok (SNegotiated n, acts, retry)) /\ p_usingPSK (n_params n) = true /\ selected26 w hm n key b hello /\ n_first n = None /\ n_hrr n = None /\
  cipherSuiteMap (psk_suite key) = Some s /\ b <> binder8446 (digest P (s_hash s)) (hmac P (s_hash s)) (hsize (s_hash s)) (psk_isResumption key) (psk_key key) hello.
Proof.
  edestruct (selects26 psk_config (message26 id26 [] [])) as (w' & acts & retry & S); [vm_compute; discriminate|].
  exists toy_prims, (v_pki toy_env), (toy_oracle 1), (world26 psk_config), (message26 id26 [] []), w', (negotiated26 psk_config (message26 id26 [] [])), acts, retry, toy_psk,
    (binder26 id26 [] []), (before26 id26 [] []), suite26.
  split; [exact toy_prims_sized|]. split; [vm_compute; reflexivity|]. split; [exact S|]. split; [vm_compute; reflexivity|]. split.
  { exists (hello26 id26 [] (binder26 id26 [] [])), [mkExt 43 (ok_or [] (versions_client_marshal [772])); mkExt 45 (ok_or [] (modes_marshal [0]))], (offer26 (binder26 id26 [] [])),
      [mkPid (str "other") 0; mkPid (str "id") 0], [repeat x00 32; binder26 id26 [] []], (mkPid (str "id") 0).
    split; [vm_compute; reflexivity|]. split; [vm_compute; reflexivity|]. split; [vm_compute; reflexivity|]. split; [vm_compute; reflexivity|]. split; [vm_compute; reflexivity|].
    split; [vm_compute; reflexivity|]. split; [vm_compute; reflexivity|]. vm_compute; reflexivity. }
  split; [vm_compute; reflexivity|]. split; [vm_compute; reflexivity|]. split; [reflexivity|].
  change (s_hash suite26) with SHA256. rewrite right26. vm_compute. discriminate.
Qed.
Theorem C26_session_id_refuted : exists P X o w hm w' n acts retry key b hello s, mac_sized P /\ cf_extensionHandler (w_cfg w) = None /\
  server_start P X o w hm = (w', Ok (SNegotiated n, acts, retry)) /\ p_usingPSK (n_params n) = true /\ selected26 w hm n key b hello /\ n_first n = None /\ n_hrr n = None /\
  cipherSuiteMap (psk_suite key) = Some s /\ b <> binder8446 (digest P (s_hash s)) (hmac P (s_hash s)) (hsize (s_hash s)) (psk_isResumption key) (psk_key key) hello.
Proof. exact session_id26. Qed.
Print Assumptions C26_session_id_refuted.

(** After a HelloRetryRequest the binder is checked for a HelloRetryRequest with the suite 0, which is not in the transcript. *)
Lemma retry_binder26 : exists P X o w hm w' n acts retry key b hello s first hrr, mac_sized P /\ cf_extensionHandler (w_cfg w) = None /\
  server_start P X o w hm = (w', Ok (SNegotiated n, acts, retry)) /\ p_usingPSK (n_params n) = true /\ selected26 w hm n key b hello /\ n_first n = Some first /\ n_hrr n = Some hrr /\
  cipherSuiteMap (psk_suite key) = Some s /\
  b <> binder8446 (digest P (s_hash s)) (hmac P (s_hash s)) (hsize (s_hash s)) (psk_isResumption key) (psk_key key) (hm_marshal first ++ hm_marshal hrr ++ hello).
Proof.
  edestruct (selects26 config26 (message26 [] base26 cookie26)) as (w' & acts & retry & S); [vm_compute; discriminate|].
  exists toy_prims, (v_pki toy_env), (toy_oracle 1), (world26 config26), (message26 [] base26 cookie26), w', (negotiated26 config26 (message26 [] base26 cookie26)), acts, retry, toy_psk,
    (binder26 [] base26 cookie26), (before26 [] base26 cookie26), suite26,
    (message_hash (be 32 77)), (match n_hrr (negotiated26 config26 (message26 [] base26 cookie26)) with Some m => m | None => message_hash [] end).
  split; [exact toy_prims_sized|]. split; [vm_compute; reflexivity|]. split; [exact S|]. split; [vm_compute; reflexivity|]. split.
  { exists (hello26 [] cookie26 (binder26 [] base26 cookie26)), [mkExt 43 (ok_or [] (versions_client_marshal [772])); mkExt 45 (ok_or [] (modes_marshal [0])); mkExt 44 (ok_or [] (cookie_marshal cookie26))],
      (offer26 (binder26 [] base26 cookie26)), [mkPid (str "other") 0; mkPid (str "id") 0], [repeat x00 32; binder26 [] base26 cookie26], (mkPid (str "id") 0).
    split; [vm_compute; reflexivity|]. split; [vm_compute; reflexivity|]. split; [vm_compute; reflexivity|]. split; [vm_compute; reflexivity|]. split; [vm_compute; reflexivity|].
    split; [vm_compute; reflexivity|]. split; [vm_compute; reflexivity|]. vm_compute; reflexivity. }
  split; [vm_compute; reflexivity|]. split; [vm_compute; reflexivity|]. split; [reflexivity|].
  change (s_hash suite26) with SHA256. rewrite right26. vm_compute. discriminate.
Qed.
Theorem C26_retry_refuted : exists P X o w hm w' n acts retry key b hello s first hrr, mac_sized P /\ cf_extensionHandler (w_cfg w) = None /\
  server_start P X o w hm = (w', Ok (SNegotiated n, acts, retry)) /\ p_usingPSK (n_params n) = true /\ selected26 w hm n key b hello /\ n_first n = Some first /\ n_hrr n = Some hrr /\
  cipherSuiteMap (psk_suite key) = Some s /\
  b <> binder8446 (digest P (s_hash s)) (hmac P (s_hash s)) (hsize (s_hash s)) (psk_isResumption key) (psk_key key) (hm_marshal first ++ hm_marshal hrr ++ hello).
Proof. exact retry_binder26. Qed.
Print Assumptions C26_retry_refuted.
