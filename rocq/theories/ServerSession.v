(** What a server that completes has checked and derived. *)
From Verif Require Import Base Frame Record Handshake Crypto CryptoSpec CryptoProofs Messages Pki SigSpec SigProofs Negotiation NegotiationSpec NegotiationProofs Machine MachineProofs CtxProofs Client Cookie Server StepProofs Conn ConnSpec ConnProofs RunSpec RunProofs TraceProofs SessionSpec SessionProofs HelloProofs ClientRun ClientSession ServerRun.

(** ** The extensions of a ClientHello *)

Definition is_value {A} (l : list ext) (t : N) (un : bytes -> res (A * nat)) (d v : A) : Prop := v = match ext_value l t un with Some x => x | None => d end.
Lemma field_value {S A} (u : bytes -> res (A * nat)) (upd : S -> A -> S) (get : S -> A) l t found s found' s' :
  (forall s, upd s (get s) = s) ->
  existsb (N.eqb t) found = false -> el_parse_one l t (fun s d => do x <- safeUnmarshal u d; Ok (upd s x)) found s = Ok (found', s') ->
  (exists v, is_value l t u (get s) v /\ s' = upd s v) /\ (forall t', t' <> t -> existsb (N.eqb t') found = false -> existsb (N.eqb t') found' = false).
Proof.
  intros G F K. apply parse_one_value in K; [|exact F]. destruct K as (-> & Ff & _). split.
  - eexists. split; [reflexivity|]. destruct (ext_value l t u); [reflexivity|]. now rewrite G.
  - intros t' Ne Q. destruct Ff as [->| ->]; [exact Q|]. cbn [existsb]. rewrite Q. now destruct (N.eqb_spec t' t).
Qed.
Ltac cx_norm E := subst; cbn [cx_versions cx_name cx_groups cx_schemes cx_shares cx_psk cx_protos cx_modes cx_cookie no_chexts] in *.
Ltac field K u f g := apply (field_value u f g) in K; [|intros []; reflexivity|
  repeat match goal with F : forall t, t <> _ -> existsb (N.eqb t) _ = false -> existsb (N.eqb t) ?l = false |- existsb _ ?l = false => apply F; [discriminate|] end; reflexivity].
Opaque el_parse_one.
Lemma ch_parse exts found x : el_parse exts ch_dsts no_chexts = Ok (found, x) -> hello_reads exts x.
Proof.
  unfold el_parse, ch_dsts. cbn [el_parse_all]. intros K.
  inv_bind K as [f1 s1] K1. inv_bind K as [f2 s2] K2. inv_bind K as [f3 s3] K3. inv_bind K as [f4 s4] K4. inv_bind K as [f5 s5] K5.
  inv_bind K as [f6 s6] K6. inv_bind K as [f7 s7] K7. inv_bind K as [f8 s8] K8. inv_bind K as [f9 s9] K9. inv_bind K as [f10 s10] K10.
  apply Ok_inj in K. injection K as -> ->.
  field K1 versions_client_unmarshal (fun s v => mkCx v (cx_name s) (cx_groups s) (cx_schemes s) (cx_shares s) (cx_psk s) (cx_protos s) (cx_modes s) (cx_cookie s)) cx_versions. destruct K1 as [(v1 & V1 & E1) F1]. cx_norm E1.
  field K2 sni_unmarshal (fun s v => mkCx (cx_versions s) v (cx_groups s) (cx_schemes s) (cx_shares s) (cx_psk s) (cx_protos s) (cx_modes s) (cx_cookie s)) cx_name. destruct K2 as [(v2 & V2 & E2) F2]. cx_norm E2.
  field K3 list16_unmarshal (fun s v => mkCx (cx_versions s) (cx_name s) v (cx_schemes s) (cx_shares s) (cx_psk s) (cx_protos s) (cx_modes s) (cx_cookie s)) cx_groups. destruct K3 as [(v3 & V3 & E3) F3]. cx_norm E3.
  field K4 list16_unmarshal (fun s v => mkCx (cx_versions s) (cx_name s) (cx_groups s) v (cx_shares s) (cx_psk s) (cx_protos s) (cx_modes s) (cx_cookie s)) cx_schemes. destruct K4 as [(v4 & V4 & E4) F4]. cx_norm E4.
  apply (parse_one_value early_unmarshal (fun s _ => s)) in K5; [|apply F4; [discriminate|]; apply F3; [discriminate|]; apply F2; [discriminate|]; apply F1; [discriminate|reflexivity]].
  destruct K5 as (E5 & G5 & _).
  assert (forall t, t <> etEarlyData -> existsb (N.eqb t) f4 = false -> existsb (N.eqb t) f5 = false) as F5.
  { intros t Ne Q. destruct G5 as [->| ->]; [exact Q|]. cbn [existsb]. rewrite Q. now destruct (N.eqb_spec t etEarlyData). }
  match type of E5 with s5 = match _ with Some _ => ?a | None => _ end => assert (s5 = a) as E5' by (destruct (ext_value exts etEarlyData early_unmarshal); exact E5) end. clear E5 G5. cx_norm E5'.
  field K6 ks_client_unmarshal (fun s v => mkCx (cx_versions s) (cx_name s) (cx_groups s) (cx_schemes s) v (cx_psk s) (cx_protos s) (cx_modes s) (cx_cookie s)) cx_shares. destruct K6 as [(v6 & V6 & E6) F6]. cx_norm E6.
  field K7 psk_client_unmarshal (fun s v => mkCx (cx_versions s) (cx_name s) (cx_groups s) (cx_schemes s) (cx_shares s) v (cx_protos s) (cx_modes s) (cx_cookie s)) cx_psk. destruct K7 as [(v7 & V7 & E7) F7]. cx_norm E7.
  field K8 alpn_unmarshal (fun s v => mkCx (cx_versions s) (cx_name s) (cx_groups s) (cx_schemes s) (cx_shares s) (cx_psk s) v (cx_modes s) (cx_cookie s)) cx_protos. destruct K8 as [(v8 & V8 & E8) F8]. cx_norm E8.
  field K9 modes_unmarshal (fun s v => mkCx (cx_versions s) (cx_name s) (cx_groups s) (cx_schemes s) (cx_shares s) (cx_psk s) (cx_protos s) v (cx_cookie s)) cx_modes. destruct K9 as [(v9 & V9 & E9) F9]. cx_norm E9.
  field K10 cookie_unmarshal (fun s v => mkCx (cx_versions s) (cx_name s) (cx_groups s) (cx_schemes s) (cx_shares s) (cx_psk s) (cx_protos s) (cx_modes s) v) cx_cookie. destruct K10 as [(v10 & V10 & E10) _]. cx_norm E10.
  cbn [cx_versions cx_name cx_groups cx_schemes cx_shares cx_psk cx_protos cx_modes cx_cookie no_chexts] in *. unfold hello_reads, value_or. cbn [cx_versions cx_name cx_groups cx_schemes cx_shares cx_psk cx_protos cx_modes cx_cookie].
  repeat split; assumption.
Qed.
Transparent el_parse_one.

(** ** Cookies *)

Lemma new_cookie_none P o cfg suite hello : new_cookie P o cfg suite hello = Ok None -> exists h, cf_cookieHandler cfg = Some h /\ o_generate o h = Some None.
Proof.
  unfold new_cookie. intros K. inv_bind K as app A. destruct app as [app|].
  - destruct (cipherSuiteMap suite) as [s|]; [|discriminate]. inv_bind K as plain B. destruct (cf_cookieProtector cfg) as [pr|]; [|discriminate].
    destruct (o_newToken o pr plain); discriminate.
  - destruct (cf_cookieHandler cfg) as [h|]; [|discriminate]. exists h. split; [reflexivity|]. destruct (o_generate o h) as [a|]; [|discriminate]. congruence.
Qed.

Section Server.
Variables (Q : oracle -> Prop) (E : env) (cfg : config) (psks : cache) (pr : N).
Notation P := (v_prims E).
Notation X := (v_pki E).
Notation H ps := (digest P (s_hash ps)).
Hypothesis sized : mac_sized P.

Lemma suite_id id s : cipherSuiteMap id = Some s -> s_id s = id.
Proof. unfold cipherSuiteMap. repeat (match goal with |- context [?a =? ?b] => destruct (N.eqb_spec a b) end; [intros [= <-]; symmetry; assumption|]). discriminate. Qed.
Lemma cookie_opens o w x first : Q o -> s_cfg cfg psks pr w -> cookie_checked o (w_cfg w) x first ->
  match first with None => cx_cookie x = [] | Some (m, s) => cx_cookie x <> [] /\ exists c, opens Q cfg pr (cx_cookie x) c /\ co_suite c = s_id s /\ m = message_hash (co_hash c) end.
Proof.
  intros Qo S. destruct (s_cfg_same _ _ _ _ S) as (Hh & _ & _ & _ & _ & Hp). unfold cookie_checked. destruct (cx_cookie x) as [|b t]; [intros ->; reflexivity|].
  intros (p & plain & c & s & A1 & A2 & A3 & A4 & A5 & ->). split; [discriminate|]. exists c. split; [|split; [now apply suite_id in A5|reflexivity]].
  apply Hp in A1. subst p. exists o, plain. split; [exact Qo|]. split; [exact A2|split; [exact A3|]].
  intros h Hq. rewrite Hh, Hq in A4. exact A4.
Qed.
Definition first_hello (first : option (hmsg * suite)) : option hmsg := match first with Some (f, _) => Some f | None => None end.
Lemma retry_prefix o w w1 w2 ch suite hello x first hrr : Q o -> s_cfg cfg psks pr w -> cookie_checked o (w_cfg w) x first -> w_cfg w1 = w_cfg w ->
  w_kind w1 = (cf_useDTLS cfg, cf_useDTLS cfg) -> (forall f s, first = Some (f, s) -> s_id s = suite) ->
  server_retry P o w1 ch suite hello (cx_cookie x) = (w2, Ok (hrr, false)) ->
  server_prefix Q cfg pr suite (ch_session ch) (cx_cookie x) (omarshal (first_hello first) ++ omarshal hrr).
Proof.
  intros Qo S C W Kw Fs R. pose proof (cookie_opens _ _ _ _ Qo S C) as O. destruct (s_cfg_same _ _ _ _ S) as (Hh & Hr & He & _). apply server_retry_ok in R. destruct R as [_ R]. rewrite W, Hr in R.
  destruct (cf_requireCookie cfg) eqn:Rq.
  - destruct first as [[m s]|]; cbn [first_hello omarshal].
    + destruct O as (Ne & c & O & Cs & ->). destruct (cx_cookie x) as [|b t]; [contradiction|]. destruct R as (_ & m & -> & G). apply (hrr_with cfg) in G. destruct G as (G1 & G2 & G4 & G3). rewrite W, He in G3. specialize (G4 Kw).
      cbn [omarshal]. rewrite message_hash_marshal. rewrite (Fs _ _ eq_refl) in Cs. now apply prefix_retry.
    + rewrite O in *. destruct R as [(token & m & _ & _ & Z & _)|(Nc & -> & _)]; [discriminate|]. apply new_cookie_none in Nc. destruct Nc as (h & A & B). rewrite Hh in A.
      exact (prefix_declined Q cfg pr suite (ch_session ch) o h Qo A B).
  - destruct R as [-> _]. cbn [omarshal]. rewrite app_nil_r. destruct first as [[m s]|]; cbn [first_hello omarshal].
    + destruct O as (Ne & c & O & Cs & ->). rewrite message_hash_marshal. rewrite (Fs _ _ eq_refl) in Cs. now apply prefix_cookie.
    + rewrite O. now apply prefix_none.
Qed.

(** ** Negotiation *)

Definition negotiated (evs : list event) (w : world) (n : snegotiated) (ch : clientHello) (x : chexts) : Prop :=
  exists before, evs = before ++ [Received (n_hello n)] /\ protects cfg pr /\ retried Q P cfg pr before /\ is_type (n_hello n) 1 /\ safeUnmarshal (ch_unmarshal (hello_version cfg)) (hm_body (n_hello n)) = Ok ch /\
    (cf_extensionHandler cfg = None -> hello_reads (ch_exts ch) x) /\ In (p_suite (n_params n)) (ch_suites ch) /\
    server_prefix Q cfg pr (p_suite (n_params n)) (ch_session ch) (cx_cookie x) (omarshal (n_first n) ++ omarshal (n_hrr n)) /\
    (forall h, server_early_secret P (start_cache cfg psks) (cx_psk x) (bound_to cfg ch (cx_cookie x)) h (n_selected n)
                 (Early_Secret h (if p_usingPSK (n_params n) then n_pskSecret n else zero h))) /\
    (forall h, server_dhe Q P (cf_groups (cfg_init cfg)) (cx_shares x) h (n_share n) (match n_dhSecret n with Some z => z | None => zero h end)) /\
    p_usingClientAuth (n_params n) = false /\ s_cfg cfg psks pr w /\ n_sessionId n = ch_session ch.
Lemma at_negotiated_facts evs w n : at_negotiated Q E cfg psks pr evs w n -> exists ch x, negotiated evs w n ch x.
Proof.
  intros (evs0 & o & w0 & w1 & hm & Qo & Fr & S & Kw & N & K & ->).
  pose proof (frame_run _ _ _ _ (frame_server_start w0 P X o w0 hm (frame_refl _)) N) as [Fc Fp].
  assert (s_cfg cfg psks pr w) as Sw. { eapply s_cfg_kept; [|exact K]. destruct S as [A B]. split; [now rewrite Fc|congruence]. }
  destruct (s_cfg_same _ _ _ _ S) as (_ & _ & He & _ & Hg & _).
  apply server_start_ok in N.
  destruct N as (ch & exts & found & x & v & first & dhs & dh & chosen & suite & hrr & again & w2 & w3 & w4 & T & U & _ & Xr & Pa & _ & _ & C & _ & Dh & Pk & N). cbv zeta in N.
  destruct (pskModeNegotiation _ _ _) as [usingDH usingPSK] eqn:Md. destruct N as (Cs & Fs & Sr & Ra & _ & N). subst again.
  destruct N as (_ & cert & scheme & proto & _ & _ & _ & _ & N). destruct (earlyDataNegotiation _ _ _) as [ue re].
  injection N as ->. exists ch, x. unfold negotiated, n_selected, n_share. cbn [n_selectedPSK n_dhGroup n_dhPublic n_sessionId n_params n_hello n_first n_hrr n_dhSecret n_pskSecret p_suite p_usingPSK p_usingDH p_usingClientAuth].
  assert (w_cfg w2 = w_cfg w0) as Wc.
  { pose proof (frame_psk w0 P o w0 (set_exts ch exts) x (first_hello first) (frame_refl w0)) as Fm. unfold first_hello in Fm. rewrite Pk in Fm. apply Fm. }
  assert (w_kind w2 = w_kind w0) as Wk.
  { pose proof (wx_psk w0 P o w0 (set_exts ch exts) x (first_hello first) (wx_refl w0)) as Fm. unfold first_hello in Fm. rewrite Pk in Fm. apply wx_kind in Fm. exact Fm. }
  rewrite (wire_version _ _ Kw) in U.
  assert (cf_extensionHandler cfg = None -> exts = ch_exts ch) as Ex.
  { intros Nh. unfold ext_recv in Xr. rewrite He, Nh in Xr. apply Ok_inj in Xr. congruence. }
  exists evs0. split; [reflexivity|]. split; [apply S|]. split; [exact Fr|]. split; [exact T|]. split; [exact U|]. split.
  { intros Nh. apply ch_parse in Pa. now rewrite <- (Ex Nh). }
  split.
  { destruct chosen as [[[j p] ps]|]; [apply suite_psk in Cs; apply Cs|]. apply suite_none in Cs. destruct Cs as (l1 & l2 & -> & _). apply in_or_app. right. now left. }
  split; [exact (retry_prefix _ _ _ _ _ _ _ _ _ _ Qo S C Wc (eq_trans Wk Kw) Fs Sr)|].
  unfold pskModeNegotiation in Md. injection Md as Md1 Md2.
  split; [|split; [|split; [reflexivity|split; [exact Sw|reflexivity]]]].
  - intros h. destruct usingPSK; [|constructor]. destruct chosen as [[[j p] ps]|]; [|discriminate].
    apply server_psk_ok in Pk. destruct Pk as [_ Pk]. destruct (cx_psk x) as [[|i ids] binders] eqn:Cx; [discriminate|].
    destruct Pk as (base & trunc & Tr & Ba & Pn). apply psk_accept in Pn; [|exact sized]. destruct Pn as (id & b & A1 & A2 & A3 & A4 & A5 & _).
    eapply server_early_psk; [exact A1|exact A2| |exact A4|exact A5|].
    + destruct S as [_ S]. change (start_cache cfg psks) with (start_psks cfg psks). now rewrite <- S.
    + exists base, trunc. split; [reflexivity|]. split.
      * intros Ck. pose proof (cookie_opens _ _ _ _ Qo S C) as O. destruct first as [[m s]|]; [destruct O as [O _]; contradiction|exact Ba].
      * intros Nh. rewrite (Ex Nh) in Tr. destruct ch; exact Tr.
  - intros h. destruct usingDH; [|constructor]. destruct dh as [[[g pub] z]|]; [|discriminate].
    apply dh_some in Dh. destruct Dh as (pre & share & post & k & priv & Es & -> & Ig & Nk & Ka & _).
    eapply server_dhe_share; [rewrite Es; apply in_or_app; right; now left|now rewrite <- Hg| |exact Ka]. exists o, k. split; [exact Qo|exact Nk].
Qed.
Lemma keys_unique s k k' : keys_state s k -> keys_state s k' -> k = k'.
Proof.
  unfold keys_state. intros -> K. destruct (p_usingEarlyData (sk_params k)), (p_usingEarlyData (sk_params k')), (p_rejectedEarlyData (sk_params k)), (p_rejectedEarlyData (sk_params k')); congruence.
Qed.

(** The whole of a completed handshake. *)
Theorem server_session evs w c : server_at Q E cfg psks pr evs w (Connected c) -> server_run Q P X cfg psks evs c.
Proof.
  intros (evs1 & w1 & w2 & k & peer & fin & acts1 & (early & auth & Rp & Eo & Cp) & N & _ & ->).
  destruct Rp as (evs0 & o & wn & wm & n & s & acts & _ & An & Sn & Ks & -> & Hw & _).
  apply at_negotiated_facts in An. destruct An as (ch & x & before & -> & Pro & Fr & T & U & Rd & Su & Pre & Es & Dh & Nca & Sw & Ns).
  destruct (s_cfg_same _ _ _ _ Sw) as (_ & _ & Heh & Hca & _).
  apply server_negotiated_ok in Sn. destruct Sn as (random & hexts & eexts & shm & ps & w3 & w4 & eem & finm & au & ca & _ & Hx & Ts & Ms & Cm & Sn). cbv zeta in Sn.
  set (pre := omarshal (n_first n) ++ omarshal (n_hrr n)) in *.
  set (base := omarshal (n_first n) ++ omarshal (n_hrr n) ++ hm_marshal (n_hello n) ++ hm_marshal shm) in *.
  set (h := hash_of P ps).
  set (es := Early_Secret h (if p_usingPSK (n_params n) then n_pskSecret n else zero h)).
  set (dh := match n_dhSecret n with Some z => z | None => zero h end).
  rewrite secrets_rfc in Sn by exact sized.
  change (handshake_secrets P ps) with (handshake_secrets P ps) in Sn. change (zeros ps) with (zero h) in Sn. fold dh in Sn. rewrite early_rfc in Sn. fold h in Sn. fold es in Sn.
  destruct Sn as (Hee & Te & Me & H3 & W3 & Ha & Tf & Bf & H2 & _ & Sk & Ac & Hall).
  match type of Sk with s = if _ then SWaitEOED ?kk else _ => assert (k = kk) as Ek by (eapply keys_unique; [exact Ks|exact Sk]) end.
  apply server_auth_ok in Ha. destruct Ha as (H4 & _ & Hau).
  set (to_hello := [Received (n_hello n); Sent shm]). set (flight := Sent eem :: map Sent (sent_of au)).
  assert (base = pre ++ encoding to_hello) as Eb. { unfold base, pre, to_hello, encoding. cbn [map concat]. now rewrite app_nil_r, <- !app_assoc. }
  assert (w_hash w4 = pre ++ encoding (to_hello ++ flight)) as E4.
  { rewrite H4, H3, Eb, encoding_app. unfold flight. change (Sent eem :: map Sent (sent_of au)) with ([Sent eem] ++ map Sent (sent_of au)).
    now rewrite (encoding_app [Sent eem]), encoding_one, encoding_sent, <- !app_assoc. }
  assert (w_hash wm = pre ++ encoding (to_hello ++ flight ++ [Sent finm])) as E5.
  { now rewrite H2, E4, (app_assoc to_hello), (encoding_app (to_hello ++ flight)), encoding_one, <- app_assoc. }
  assert (forall l, w_hash wm ++ encoding l = pre ++ encoding (to_hello ++ flight ++ Sent finm :: l)) as E6.
  { intros l. rewrite E5, <- app_assoc, <- encoding_app. do 2 f_equal. now rewrite <- !app_assoc. }
  assert (map Sent (sent_of acts) = Sent shm :: flight ++ [Sent finm]) as Ev.
  { rewrite Ac, !sent_app. cbn [sent_of]. destruct (p_usingEarlyData _); cbn [sent_of]; rewrite !(map_app Sent); cbn [map app]; rewrite ?app_nil_r; reflexivity. }
  apply server_wait_finished_ok in N. cbv zeta in N. destruct N as (Tfin & Bfin & Hfin & _ & Cc & _). injection Cc as ->.
  assert (p_usingPSK (sk_params k) = p_usingPSK (n_params n) /\ p_suite (sk_params k) = p_suite (n_params n) /\ p_usingDH (sk_params k) = p_usingDH (n_params n) /\ sk_suite k = ps /\
    p_usingEarlyData (sk_params k) = p_usingEarlyData (n_params n) /\ p_nextProto (sk_params k) = p_nextProto (n_params n)) as (Pp & Psu & Pd & Pk & Pe & Pn).
  { rewrite Ek. cbn [sk_params sk_suite]. destruct ca; repeat split. }
  assert (server_hello cfg (ch_session ch) (p_suite (n_params n)) (n_selected n) (n_share n) shm) as Hsh.
  { split; [exact Ts|]. rewrite Ns in Ms. exists random, hexts. split; [exact Ms|]. intros Nh. inv_bind Hx as l0 Hx0. apply or_alert_ok in Hx0. unfold ext_send in Hx. rewrite Heh, Nh in Hx.
    apply Ok_inj in Hx. subst hexts. now apply server_hello_values. }
  assert (server_extensions cfg (p_usingEarlyData (n_params n)) (p_nextProto (n_params n)) eem) as Hex.
  { split; [exact Te|]. exists eexts. split; [exact Me|]. intros Nh. inv_bind Hee as l0 Hee0. apply or_alert_ok in Hee0. unfold ext_send in Hee. rewrite Heh, Nh in Hee.
    apply Ok_inj in Hee. subst eexts. now apply server_ee_values. }
  assert (Forall (fun m => is_type m 8 \/ is_type m 11 \/ is_type m 13 \/ is_type m 15) (eem :: sent_of au)) as Tfl.
  { constructor; [left; exact Te|]. destruct (p_usingPSK (n_params n)); [destruct Hau as [_ ->]; constructor|].
    destruct Hau as (_ & crs & cert & certm & cvm & cv & -> & _ & Hcr & Tc & _ & _ & Tv & _). rewrite sent_app. apply Forall_app. split.
    - destruct (cf_requireClientAuth (w_cfg w3)); [destruct Hcr as (crm & cr & -> & Tr & _)|subst crs; constructor]. cbn [sent_of]. constructor; [right; right; left; exact Tr|constructor].
    - cbn [sent_of]. constructor; [right; left; exact Tc|]. constructor; [right; right; right; exact Tv|constructor]. }
  assert (p_usingClientAuth (sk_params k) = negb (p_usingPSK (n_params n)) && cf_requireClientAuth cfg) as Pc.
  { rewrite Ek. cbn [sk_params]. rewrite W3, Hca, Nca, orb_false_r in Hau. destruct (p_usingPSK (n_params n)); cbn [negb andb].
    - destruct Hau as [-> _]. exact Nca.
    - destruct Hau as [-> _]. destruct (cf_requireClientAuth cfg); [reflexivity|exact Nca]. }
  assert (sk_chs k = client_handshake_secret h es dh base /\ sk_master k = Master_Secret h (Handshake_Secret h es dh)) as [Kc Km] by (rewrite Ek; split; reflexivity).
  assert (sk_cts k = Derive_Secret h (sk_master k) "c ap traffic" (w_hash wm) /\ sk_sts k = Derive_Secret h (sk_master k) "s ap traffic" (w_hash wm) /\
          sk_exporter k = Derive_Secret h (sk_master k) "exp master" (w_hash wm)) as (Kt & Kst & Kx).
  { rewrite Ek. cbn [sk_cts sk_sts sk_exporter sk_master].
    unfold labelClientApplicationTrafficSecret, labelServerApplicationTrafficSecret, labelExporterSecret. rewrite !derive_rfc by exact sized. auto. }
  rewrite encoding_app in Hw. rewrite <- encoding_app, E6 in Hw.
  exists before, (n_hello n), shm, eem, flight, finm, early, auth, fin, ch, x, pr, pre, (n_selected n), (n_share n), es, dh. cbv zeta. cbn [sc_suite sc_params sc_peer sc_isClient sc_chains].
  rewrite Pp, Psu, Pd, Pk, ?Pe, Pn. fold h. fold to_hello.
  split; [rewrite Ev; unfold to_hello; cbn [app]; rewrite <- !app_assoc; cbn [app]; rewrite <- !app_assoc; reflexivity|].
  split; [exact Pro|]. split; [exact Fr|]. split; [exact T|]. split; [exact Hsh|]. split; [reflexivity|]. split; [exact Hex|].
  split. { unfold flight. change (Sent eem :: map Sent (sent_of au)) with (map Sent (eem :: sent_of au)). apply Forall_forall. intros e Ie. apply in_map_iff in Ie. destruct Ie as (m & <- & Im).
           exists m. split; [reflexivity|]. exact (proj1 (Forall_forall _ _) Tfl m Im). }
  split; [exact Tf|]. split; [exact Tfin|]. split; [exact U|]. split; [exact Rd|]. split; [exact Cm|]. split; [exact Su|]. split; [exact Pre|].
  split; [unfold n_selected; now destruct (p_usingPSK (n_params n))|]. split; [unfold n_share; now destruct (p_usingDH (n_params n))|]. split; [apply Es|]. split; [apply Dh|].
  split; [rewrite Bf, finished_rfc, E4, Eb by exact sized; reflexivity|].
  split; [unfold eoed in Eo; rewrite Pe in Eo; exact Eo|].
  assert (w_hash w1 = (pre ++ encoding (to_hello ++ flight ++ Sent finm :: early)) ++ encoding auth) as E7.
  { rewrite Hw, <- app_assoc, <- encoding_app. do 2 f_equal. now rewrite <- !app_assoc. }
  split; [|split; [|split; [exact Pc|split; [|split; [|split; reflexivity]]]]].
  - destruct Cp as [(_ & -> & ->)|[(certm & cert & (_ & A & B) & -> & C & ->)|(certm & cert & cvm & cv & leaf & rest & bf & o1 & (_ & A & B) & -> & C & D & M & -> & Hb & Qo & V & Po)]].
    + constructor.
    + eapply client_empty; eauto.
    + eapply (client_proved _ _ _ _ _ _ certm cert cvm cv leaf rest o1); try eassumption.
      * intros v Hq. unfold peer_ok in Po. change (cf_verifyPeerCertificate (cfg_init cfg)) with (cf_verifyPeerCertificate cfg) in Po. now rewrite Hq in Po.
      * apply cv_verify_iff. rewrite <- Pk. 
        assert (bf = (pre ++ encoding (to_hello ++ flight ++ Sent finm :: early)) ++ hm_marshal certm) as <-; [|exact V].
        rewrite E7 in Hb. change [Received certm; Received cvm] with ([Received certm] ++ [Received cvm]) in Hb. rewrite (encoding_app [Received certm] [Received cvm]), !encoding_one, app_assoc in Hb.
        apply app_inv_tail in Hb. congruence.
  - destruct Cp as [(A & -> & _)|[(certm & cert & (A & _) & -> & _)|(certm & cert & cvm & cv & leaf & rest & bf & o1 & (A & _) & -> & _)]]; rewrite A; split; congruence.
  - rewrite Bfin, Pk, finished_rfc, Kc, Hw, Eb by exact sized. reflexivity.
  - unfold session_secrets. cbn [sc_cts sc_sts sc_exporter sc_resumption]. rewrite Kt, Kst, Kx. unfold labelResumptionSecret. rewrite derive_rfc by exact sized.
    rewrite Hfin, Hw, Km, E5. fold h. rewrite <- app_assoc. rewrite <- (encoding_one (Received fin)), <- encoding_app.
    replace ((to_hello ++ flight ++ Sent finm :: early ++ auth) ++ [Received fin]) with (to_hello ++ flight ++ Sent finm :: early ++ auth ++ [Received fin]); [auto|].
    rewrite <- !app_assoc. cbn [app]. now rewrite <- !app_assoc.
Qed.
End Server.

Lemma server_connected Q E cfg psks : mac_sized (v_prims E) -> forall input evs c k, steady Q E (newConn cfg psks false input) evs c -> c_hState c = Some (Connected k) ->
  server_run Q (v_prims E) (v_pki E) cfg psks evs k.
Proof.
  intros sized input evs c k S Hs. pose proof (steady_path _ _ _ _ _ _ _ _ S) as O. unfold on_path in O. rewrite Hs in O. destruct O as (w & Pa & _).
  apply server_path in Pa; [|reflexivity]. destruct Pa as [pr Pa]. now apply server_session in Pa.
Qed.
Theorem server_completed Q E cfg psks : mac_sized (v_prims E) -> forall input evs c, steady Q E (newConn cfg psks false input) evs c -> c_complete c = true ->
  exists k, server_run Q (v_prims E) (v_pki E) cfg psks evs k /\ same_session k (c_state c).
Proof.
  intros sized input evs c S Cc. pose proof (steady_settled _ _ _ _ _ _ _ _ S) as Se. pose proof (server_connected Q E cfg psks sized input evs c) as O.
  pose proof S as S0. apply steady_used, inv_used in S. rewrite (inv_complete _ _ _ S) in Cc. unfold is_connected in Cc.
  destruct (c_hState c) as [s|] eqn:Hs; [|discriminate]. destruct s as [| | | | | | | | | | | | | | |k]; try discriminate. exists k. split; [now apply O|now apply Se].
Qed.
