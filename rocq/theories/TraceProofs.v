(** The handshake messages sent and received follow the state diagrams, and the transcript is theirs. *)
From Verif Require Import Base Syntax Frame Record RecordSpec Timer Handshake Crypto Messages Pki Negotiation NegotiationSpec Machine Cookie Client Server Conn ConnSpec
  CalmProofs MessageSpec MessageProofs2 MachineProofs StepProofs CtxProofs ConnProofs RunSpec RunProofs.

(** ** The random value of a ServerHello *)

Lemma dec_bytes fuel n : forall d l r d', dec_n (decode fuel u8 null_opts) n d = Ok (l, r, d') ->
  bytes_of (VList l) = firstn n d /\ d' = skipn n d /\ (n <= List.length d)%nat.
Proof.
  induction n as [|n IH]; intros d l r d'.
  - intros [= <- _ <-]. repeat split. lia.
  - cbn [dec_n]. intros H. inv_bind H as [[v r1] d1] H1. inv_bind H as [[l2 r2] d2] H2. apply Ok_inj in H. injection H as <- <- <-.
    destruct d as [|x d]; [discriminate|]. apply Ok_inj in H1. injection H1 as <- _ <-. apply IH in H2. destruct H2 as (A & -> & L).
    cbn [skipn] in *. split; [|split; [reflexivity|cbn; lia]]. cbn [firstn]. rewrite <- A. unfold bytes_of. cbn [elems map num_of]. f_equal.
    destruct x; reflexivity.
Qed.
Lemma dec_u16 fuel d v r d' : decode fuel u16 null_opts d = Ok (v, r, d') -> d' = skipn 2 d.
Proof. cbn [decode u16 null_opts varint]. destruct (negb _); [discriminate|]. intros H. apply Ok_inj in H. now injection H as _ _ <-. Qed.
Lemma sh_random_body body sh n : sh_unmarshal body = Ok (sh, n) -> sh_random sh = firstn 32 (skipn 2 body).
Proof.
  unfold sh_unmarshal, decoded, unmarshal, sh_ty, struct. intros H. inv_bind H as [v k] H1. apply Ok_inj in H. injection H as <- _. cbn [sh_random].
  destruct (ty_valid _); [|discriminate]. inv_bind H1 as [[v1 r1] d1] H2. apply Ok_inj in H1. injection H1 as <- _.
  cbn [decode] in H2. inv_bind H2 as [[l r] d2] H3. apply Ok_inj in H2. injection H2 as <- _ _.
  cbn [decode_fields fold_right] in H3. inv_bind H3 as [[v1 r2] d3] H4. cbn [omit null_opts] in H4. apply dec_u16 in H4. subst d3.
  inv_bind H3 as [[l2 r3] d4] H5. apply Ok_inj in H3. injection H3 as <- _ _.
  inv_bind H5 as [[v2 r4] d5] H6. inv_bind H5 as [[l3 r5] d6] H7. apply Ok_inj in H5. injection H5 as <- _ _.
  cbn [omit null_opts] in H6. change (decode (List.length body) (TArray 32 u8) null_opts (skipn 2 body)) with (do '(l, r, d') <- dec_n (decode (List.length body) u8 null_opts) 32 (skipn 2 body); Ok (VList l, r, d')) in H6.
  inv_bind H6 as [[l4 r6] d7] H8. apply Ok_inj in H6. injection H6 as <- _ _. apply dec_bytes in H8. destruct H8 as [A _]. exact A.
Qed.
Lemma sentinel_random : hrrRandomSentinel = retry_random.
Proof. reflexivity. Qed.
Lemma retry_iff hm sh n : hm_type hm = htServerHello -> sh_unmarshal (hm_body hm) = Ok (sh, n) -> is_retry hm = beqb (sh_random sh) hrrRandomSentinel.
Proof. intros T H. apply sh_random_body in H. unfold is_retry. rewrite T, H. reflexivity. Qed.
Lemma retry_made w v ses suite comp exts m : made w (BServerHello (mkSh v hrrRandomSentinel ses suite comp exts)) m -> is_retry m = true /\ hm_type m = htServerHello.
Proof.
  intros (A & B & _). split; [|exact B]. unfold is_retry. rewrite B. cbn [body_marshal] in A. apply sh_is in A. destruct A as [_ ->].
  unfold sh_wire. cbn [sh_version sh_random]. rewrite sentinel_random.
  replace (firstn 32 _) with retry_random; [now rewrite beqb_refl|].
  rewrite skipn_app, (skipn_all2 (be 2 v)) by (rewrite be_length; lia). rewrite be_length. cbn [Nat.sub skipn app].
  reflexivity.
Qed.

(** ** The diagrams *)

Lemma follows_app {A} (step : A -> event -> A -> Prop) p evs q evs' r : follows step p evs q -> follows step q evs' r -> follows step p (evs ++ evs') r.
Proof.
  intros H K. induction K as [|evs' q' e r K IH S]; [now rewrite app_nil_r|]. rewrite app_assoc. econstructor; eauto.
Qed.
Lemma follows_cons {A} (step : A -> event -> A -> Prop) p e q evs r : step p e q -> follows step q evs r -> follows step p (e :: evs) r.
Proof. intros S K. change (e :: evs) with ([e] ++ evs). eapply follows_app; [|exact K]. change [e] with ([] ++ [e]). econstructor; [constructor|exact S]. Qed.
Lemma follows_one {A} (step : A -> event -> A -> Prop) p e q : step p e q -> follows step p [e] q.
Proof. intros S. eapply follows_cons; [exact S|constructor]. Qed.

(** The phase of a state, and what is known of the state in it. *)
Definition cphase_of (s : hstate) : cphase :=
  match s with
  | CStart _ => C_START | CWaitSH _ => C_WAIT_SH | CWaitEE _ => C_WAIT_EE | CWaitCertCR _ => C_WAIT_CERT_CR | CWaitCert _ _ => C_WAIT_CERT
  | CWaitCV k _ _ => C_WAIT_CV (p_usingClientAuth (ck_params k))
  | CWaitFinished k _ _ _ _ => C_WAIT_FINISHED (p_usingClientAuth (ck_params k))
  | _ => C_CONNECTED
  end.
Definition cstate_ok (s : hstate) : Prop :=
  match s with
  | CStart st => p_usingClientAuth (st_params st) = false
  | CWaitSH ws => p_usingClientAuth (ws_params ws) = false
  | CWaitEE k | CWaitCertCR k => p_usingClientAuth (ck_params k) = false
  | CWaitCert k _ => p_usingClientAuth (ck_params k) = true
  | CWaitCV _ _ _ | CWaitFinished _ _ _ _ _ | Connected _ => True
  | _ => False
  end.

Lemma got_ok fuel o w w1 hm : hr_read fuel o w = (w1, Ok hm) -> got (hr_read fuel o w) = [Received hm].
Proof. intros ->. reflexivity. Qed.
Lemma only_sent l : only_messages l -> sent_of l = flat_map (fun a => match a with QueueHandshakeMessage m => [m] | _ => [] end) l.
Proof. induction 1 as [|a l [m ->] _ IH]; [reflexivity|]. cbn. now rewrite IH. Qed.

Lemma client_follows Q E cfg psks client evs s w : path Q E cfg psks client evs s w -> client = true -> follows client_diagram C_START evs (cphase_of s) /\ cstate_ok s.
Proof.
  intros H. induction H as [o w w' s acts retry Qo Hc Hp Hk Cs|w Hw Hp Hk|client o fuel evs s w w' s' acts retry H IH Qo Nc N|client evs s w w' H IH K]; intros R; try discriminate.
  - apply client_start_ok in Cs. destruct Cs as (ws & ch & sending & k & -> & _ & -> & M & Hps & _). destruct M as (_ & M & _).
    split; [|cbn; rewrite Hps; destruct (w_cfg w); reflexivity].
    replace (sent_of _) with [ws_hello ws] by (destruct sending; reflexivity). cbn [map cphase_of]. apply follows_one. constructor. exact M.
  - destruct (IH R) as [F O]. clear IH. 
    assert (forall evs', follows client_diagram (cphase_of s) evs' (cphase_of s') -> follows client_diagram C_START (evs ++ evs') (cphase_of s')) as Z.
    { intros evs' F'. eapply follows_app; eauto. }
    destruct s as [st|ws|k|k|k cr|k cert cr|k certs cr peer chains| | | | | | | | |c]; cbn [cstate_ok] in O; try contradiction; cbn [next read_by cphase_of] in *.
    + apply client_start_ok in N. destruct N as (ws & ch & sending & k & -> & _ & -> & M & Hps & _). destruct M as (_ & M & _).
      split; [|cbn; rewrite Hps; exact O]. apply Z. replace (sent_of _) with [ws_hello ws] by (destruct sending; reflexivity). cbn [map cphase_of app]. apply follows_one. constructor. exact M.
    + inv_call N as w1 hm H1. rewrite (got_ok _ _ _ _ _ H1). apply client_wait_sh_ok in N. destruct N as (sh & n & vs & T & U & _ & _ & _ & [[Rd N]|[Rd N]]).
      * apply client_hrr_ok in N. destruct N as (cookie & ps & exts & _ & _ & -> & -> & _). split; [|reflexivity]. apply Z. cbn. apply follows_one. constructor; [exact T|].
        rewrite (retry_iff _ _ _ T U), Rd. apply beqb_refl.
      * apply client_server_hello_ok in N. destruct N as (exts & found & selected & share & ps & dh & _ & _ & _ & N). cbv zeta in N. destruct N as (_ & _ & N).
        destruct (handshake_secrets _ _ _ _ _) as [[chs shs] master]. destruct N as (-> & _ & ->).
        split; [|exact O]. apply Z. replace (sent_of _) with (@nil hmsg) by (destruct (p_clientSendingEarlyData _); reflexivity). cbn. apply follows_one. constructor; [exact T|].
        rewrite (retry_iff _ _ _ T U). destruct (beqb _ _) eqn:B; [|reflexivity]. now apply beqb_eq in B.
    + inv_call N as w1 hm H1. rewrite (got_ok _ _ _ _ _ H1). apply client_wait_ee_ok in N. destruct N as (exts & exts' & found & protos & T & _ & _ & _ & _ & _ & N). cbv zeta in N.
      destruct N as [-> ->].
      replace (sent_of _) with (@nil hmsg) by (destruct (_ && _); reflexivity). cbn [map app].
      destruct (p_usingPSK (ck_params k)); (split; [|cbn; solve [exact I|exact O]]); apply Z; cbn; apply follows_one; [rewrite O|]; now constructor.
    + inv_call N as w1 hm H1. rewrite (got_ok _ _ _ _ _ H1). apply client_wait_cert_cr_ok in N. destruct N as (_ & _ & -> & [(cert & T & _ & ->)|(cr & T & _ & _ & ->)]); (split; [|cbn; auto]); apply Z; cbn; apply follows_one.
      * rewrite O. now constructor.
      * now constructor.
    + inv_call N as w1 hm H1. rewrite (got_ok _ _ _ _ _ H1). apply client_wait_cert_ok in N. destruct N as (_ & _ & -> & cert & T & _ & ->). split; [|exact I]. apply Z. cbn. rewrite O. apply follows_one. now constructor.
    + inv_call N as w1 hm H1. rewrite (got_ok _ _ _ _ _ H1). apply client_wait_cv_ok in N. destruct N as (_ & _ & -> & cv & leaf & rest & chains & T & _ & _ & _ & _ & _ & ->).
      split; [|exact I]. apply Z. cbn. apply follows_one. now constructor.
    + inv_call N as w1 hm H1. rewrite (got_ok _ _ _ _ _ H1). apply client_wait_finished_ok in N. destruct N as (w2 & w3 & eoed & auth & finm & T & N). cbv zeta in N.
      destruct N as (_ & Ee & Ea & Tf & _ & _ & _ & -> & -> & _). split; [|exact I]. apply Z. cbn [cphase_of].
      apply client_eoed_ok in Ee. destruct Ee as [_ Ee]. apply client_auth_ok in Ea. destruct Ea as (_ & _ & Ea).
      eapply follows_cons; [constructor; exact T|]. rewrite !sent_app, !map_app. cbn [sent_of map].
      assert (exists p, (p = C_SEND_EOED (p_usingClientAuth (ck_params k)) \/ p = C_SEND_CERT (p_usingClientAuth (ck_params k))) /\
        follows client_diagram (C_SEND_EOED (p_usingClientAuth (ck_params k))) (map Sent (sent_of eoed)) p) as (p & Hp & F1).
      { destruct (p_usingEarlyData (ck_params k)).
        - destruct Ee as (m & (_ & M & _) & ->). eexists; split; [right; reflexivity|]. cbn. apply follows_one. constructor. exact M.
        - subst eoed. eexists; split; [left; reflexivity|]. constructor. }
      eapply follows_app; [exact F1|]. destruct (p_usingClientAuth (ck_params k)).
      * destruct Ea as (c & -> & schemes & _ & [(certm & -> & Tc & _)|(certm & cvm & cert & scheme & cv & -> & _ & Tc & _ & _ & Tv & _)]); cbn [sent_of map app].
        -- eapply follows_cons; [apply cd_send_certificate; [exact Hp|exact Tc]|]. apply follows_one. apply cd_send_finished; auto.
        -- eapply follows_cons; [apply cd_send_certificate; [exact Hp|exact Tc]|]. eapply follows_cons; [apply cd_send_verify; exact Tv|]. apply follows_one. apply cd_send_finished; auto.
      * subst auth. cbn [sent_of map app]. apply follows_one. apply cd_send_finished; [|exact Tf]. destruct Hp as [->| ->]; auto.
  - exact (IH R).
Qed.

Definition sphase_of (s : hstate) : sphase :=
  match s with
  | SStart => S_START | SNegotiated _ => S_RECVD_CH
  | SWaitEOED k => S_WAIT_EOED (p_usingClientAuth (sk_params k))
  | SReadPastEarlyData (SWaitFlight2 k) | SWaitFlight2 k | SWaitCert k => S_WAIT_FLIGHT2 (p_usingClientAuth (sk_params k))
  | SWaitCV _ _ => S_WAIT_CV
  | SWaitFinished k _ => if p_usingClientAuth (sk_params k) then S_WAIT_FINISHED else S_WAIT_FLIGHT2 false
  | _ => S_CONNECTED
  end.
Definition sstate_ok (s : hstate) : Prop :=
  match s with
  | SStart | SWaitEOED _ | SWaitFlight2 _ | SWaitFinished _ _ | Connected _ => True
  | SReadPastEarlyData nx => exists k, nx = SWaitFlight2 k
  | SNegotiated n => p_usingClientAuth (n_params n) = false
  | SWaitCert k | SWaitCV k _ => p_usingClientAuth (sk_params k) = true
  | _ => False
  end.
Lemma read_eoed fuel o w w1 w2 hm : read_early fuel w = (w1, Ok tt) -> hr_read fuel o w1 = (w2, Ok hm) ->
  match read_early fuel w with (w, Ok _) => got (hr_read fuel o w) | _ => [] end = [Received hm].
Proof. intros -> ->. reflexivity. Qed.

Lemma server_follows Q E cfg psks client evs s w : path Q E cfg psks client evs s w -> client = false -> follows server_diagram S_START evs (sphase_of s) /\ sstate_ok s.
Proof.
  intros H. induction H as [o w w' s acts retry Qo Hc Hp Hk Cs|w Hw Hp Hk|client o fuel evs s w w' s' acts retry H IH Qo Nc N|client evs s w w' H IH K]; intros R; try discriminate.
  - split; [constructor|exact I].
  - destruct (IH R) as [F O]. clear IH. 
    assert (forall evs', follows server_diagram (sphase_of s) evs' (sphase_of s') -> follows server_diagram S_START (evs ++ evs') (sphase_of s')) as Z.
    { intros evs' F'. eapply follows_app; eauto. }
    destruct s as [st|ws|k|k|k cr|k cert cr|k certs cr peer chains| |n|k|nx|k|k|k cert|k peer|c]; cbn [sstate_ok] in O; try contradiction; cbn [next read_by sphase_of] in *.
    + inv_call N as w1 hm H1. rewrite (got_ok _ _ _ _ _ H1). apply server_start_ok in N.
      destruct N as (ch & exts & found & x & v & first & dhs & dh & chosen & suite & hrr & again & w2 & w3 & w4 & T & _ & _ & _ & _ & _ & _ & _ & _ & _ & _ & N). cbv zeta in N.
      destruct (pskModeNegotiation _ _ _) as [usingDH usingPSK]. destruct N as (_ & _ & Sr & _ & _ & N). destruct again.
      * destruct N as (-> & _ & ->). split; [|exact I]. apply Z. apply server_retry_ok in Sr. destruct Sr as [_ Sr]. destruct (cf_requireCookie _); [|now destruct Sr].
        destruct (cx_cookie x); [|now destruct Sr]. destruct Sr as [(token & m & _ & -> & _ & G)|(_ & _ & ?)]; [|discriminate].
        apply generate_hrr_ok in G. destruct G as (? & ? & _ & _ & M & _). apply retry_made in M. destruct M as [M1 M2]. cbn [sent_of map].
        eapply follows_cons; [constructor; exact T|]. apply follows_one. now apply sd_retry.
      * destruct N as (_ & cert & scheme & proto & _ & _ & -> & _ & N). destruct (earlyDataNegotiation _ _ _) as [usingEarly rejected]. subst s'. split; [|reflexivity].
        apply Z. cbn. apply follows_one. now constructor.
    + apply server_negotiated_ok in N. destruct N as (random & hexts & eexts & shm & ps & w3 & w4 & eem & finm & auth & ca & _ & _ & Ts & _ & _ & N). cbv zeta in N.
      destruct (handshake_secrets _ _ _ _ _) as [[chs shs] ms]. destruct N as (_ & Te & _ & _ & _ & Ha & Tf & _ & _ & _ & -> & -> & _).
      apply server_auth_ok in Ha. destruct Ha as (_ & _ & Ha).
      set (ps' := if ca then set_clientAuth (n_params n) else n_params n) in *.
      assert (p_usingClientAuth ps' = ca) as Ca. { unfold ps'. destruct ca; [reflexivity|exact O]. } clearbody ps'.
      split; [|destruct (p_usingEarlyData ps'); [exact I|destruct (p_rejectedEarlyData ps'); cbn; eauto]].
      apply Z. rewrite !sent_app.
      match goal with |- context [sent_of [if ?b then ?x else ?y]] => replace (sent_of [if b then x else y]) with (@nil hmsg) by (destruct b; reflexivity) end.
      cbn [sent_of app map]. eapply follows_cons; [apply sd_server_hello; exact Ts|]. eapply follows_cons; [constructor; exact Te|].
      match goal with |- follows _ _ _ ?q => assert (q = S_WAIT_EOED ca \/ q = S_WAIT_FLIGHT2 ca) as Hq end.
      { destruct (p_usingEarlyData ps'); [left; cbn; now rewrite Ca|]. destruct (p_rejectedEarlyData ps'); right; cbn; now rewrite Ca. }
      destruct (p_usingPSK (n_params n)).
      * destruct Ha as [-> ->]. cbn [sent_of app map]. apply follows_one. eapply sd_finished; [|exact Hq|exact Tf]. right. split; [reflexivity|]. exact O.
      * destruct Ha as (-> & crs & cert & certm & cvm & cv & -> & _ & Hcr & Tc & _ & _ & Tv & _). rewrite !sent_app. cbn [sent_of]. rewrite O, Bool.orb_false_r in *.
        destruct (cf_requireClientAuth (w_cfg w3)).
        -- destruct Hcr as (crm & cr & -> & Tr & _). cbn [sent_of app map]. eapply follows_cons; [apply sd_request; exact Tr|].
           eapply follows_cons; [apply sd_certificate'; exact Tc|]. eapply follows_cons; [apply sd_verify; exact Tv|]. apply follows_one. eapply sd_finished; [|exact Hq|exact Tf]. auto.
        -- subst crs. cbn [sent_of app map].
           eapply follows_cons; [apply sd_certificate; exact Tc|]. eapply follows_cons; [apply sd_verify; exact Tv|]. apply follows_one. eapply sd_finished; [|exact Hq|exact Tf]. auto.
    + inv_call N as w1 u H1. destruct u. inv_call N as w2 hm H2. rewrite (read_eoed _ _ _ _ _ _ H1 H2). apply server_wait_eoed_ok in N. destruct N as (T & _ & _ & _ & -> & ->).
      split; [|exact I]. apply Z. cbn. apply follows_one. now constructor.
    + destruct O as [k ->]. apply server_read_past_ok in N. destruct N as (_ & _ & -> & ->). split; [|exact I]. apply Z. constructor.
    + apply server_wait_flight2_ok in N. destruct N as (_ & _ & -> & ->). destruct (p_usingClientAuth (sk_params k)) eqn:Ca; (split; [|solve [exact Ca|exact I]]); apply Z; cbn; rewrite ?Ca; constructor.
    + inv_call N as w1 hm H1. rewrite (got_ok _ _ _ _ _ H1). apply server_wait_cert_ok in N. destruct N as (cert & T & _ & _ & _ & -> & ->).
      destruct (ct_list cert); (split; [|solve [exact O|exact I]]); apply Z; cbn; rewrite O; apply follows_one; [now apply sd_client_certificate_empty|now apply sd_client_certificate].
    + inv_call N as w1 hm H1. rewrite (got_ok _ _ _ _ _ H1). apply server_wait_cv_ok in N. destruct N as (cv & leaf & rest & T & _ & _ & _ & _ & _ & _ & -> & ->).
      split; [|exact I]. apply Z. cbn. rewrite O. apply follows_one. now apply sd_client_verify.
    + inv_call N as w1 hm H1. rewrite (got_ok _ _ _ _ _ H1). apply server_wait_finished_ok in N. destruct N as (T & _ & _ & _ & -> & ->).
      split; [|exact I]. apply Z. cbn. apply follows_one. apply sd_client_finished; [|exact T]. destruct (p_usingClientAuth (sk_params k)); auto.
  - exact (IH R).
Qed.

(** ** Messages out of order *)

Lemma bN_type m (t : byte) l : ~ In (bN (hm_type m)) l -> In (bN t) l -> Byte.eqb (hm_type m) t = false.
Proof. intros H K. destruct (Byte.eqb (hm_type m) t) eqn:T; [|reflexivity]. apply byte_eq in T. rewrite T in H. contradiction. Qed.
Lemma got_inv p m : got p = [Received m] -> exists w, p = (w, Ok m).
Proof. destruct p as [w [x|e| |]]; cbn; try discriminate. intros [= ->]. eauto. Qed.
Lemma next_wrong P X o fuel w s m w' r : read_by fuel o w s = [Received m] -> ~ In (bN (hm_type m)) (awaited s) -> next P X o fuel w s = (w', r) ->
  r = Err (EAlert 10) \/ r = Err (EAlert 50).
Proof.
  intros R A N.
  destruct s as [st|ws|k|k|k cr|k cert cr|k certs cr peer chains| |n|k|nx|k|k|k cert|k peer|c]; cbn [read_by awaited] in *; try discriminate; cbn [next] in N.
  all: try (apply got_inv in R; destruct R as [w1 R]; rewrite R in N; cbn [sbind] in N).
  - unfold client_wait_sh in N. rewrite (bN_type _ htServerHello _ A) in N by (cbn; auto). injection N as _ <-. auto.
  - unfold client_wait_ee in N. rewrite (bN_type _ htEncryptedExtensions _ A) in N by (cbn; auto). injection N as _ <-. auto.
  - unfold client_wait_cert_cr in N. pose proof (calm_toBody (x_parses X) (hm_type m) (hm_body m)) as [C1 C2]. pose proof (toBody_type (x_parses X) (hm_type m) (hm_body m)) as T.
    destruct (toBody _ _ _) as [b|e| |]; cbn [or_alert sbind] in N; try contradiction; [|injection N as _ <-; auto].
    specialize (T b eq_refl). destruct b; try (injection N as _ <-; auto); exfalso; apply A; rewrite T; cbn; auto.
  - unfold client_wait_cert in N. rewrite (bN_type _ htCertificate _ A) in N by (cbn; auto). injection N as _ <-. auto.
  - unfold client_wait_cv in N. rewrite (bN_type _ htCertificateVerify _ A) in N by (cbn; auto). injection N as _ <-. auto.
  - unfold client_wait_finished in N. rewrite (bN_type _ htFinished _ A) in N by (cbn; auto). injection N as _ <-. auto.
  - unfold server_start in N. rewrite (bN_type _ htClientHello _ A) in N by (cbn; auto). injection N as _ <-. auto.
  - destruct (read_early fuel w) as [w1 [u|e| |]]; try discriminate. cbn [sbind] in N. apply got_inv in R; destruct R as [w2 R]; rewrite R in N; cbn [sbind] in N.
    unfold server_wait_eoed in N. rewrite (bN_type _ htEndOfEarlyData _ A) in N by (cbn; auto). injection N as _ <-. auto.
  - unfold server_wait_cert in N. rewrite (bN_type _ htCertificate _ A) in N by (cbn; auto). injection N as _ <-. auto.
  - unfold server_wait_cv in N. rewrite (bN_type _ htCertificateVerify _ A) in N by (cbn; auto). injection N as _ <-. auto.
  - unfold server_wait_finished in N. rewrite (bN_type _ htFinished _ A) in N by (cbn; auto). injection N as _ <-. auto.
Qed.
Lemma like_same r r' : core_like r r' -> same_cipher r r'.
Proof. unfold core_like, same_cipher. tauto. Qed.
Lemma turn_wrong E fuel o c s m c' r : read_by fuel o (c_world c) s = [Received m] -> ~ In (bN (hm_type m)) (awaited s) -> handshake_turn E fuel o c s = (c', r) ->
  (r = Err (EAlert 10) \/ r = Err (EAlert 50)) /\ c_hState c' = c_hState c /\ c_complete c' = c_complete c /\ no_new_keys c c'.
Proof.
  intros R A. unfold handshake_turn. pose proof (wx_next (c_world c) (v_prims E) (v_pki E) o fuel (c_world c) s (wx_refl _)) as X.
  destruct (next _ _ _ _ _ _) as [w rn] eqn:N. unfold all in X; cbn [fst] in X. pose proof (next_wrong _ _ _ _ _ _ _ _ _ R A N) as D.
  assert (no_new_keys c (set_world c w)) as K. { destruct X as (X1 & X2 & _). split; apply like_same; assumption. }
  destruct D as [->| ->]; cbv beta iota; cbn [N.eqb AlertWouldBlock]; change (10 =? AlertWouldBlock) with false; change (50 =? AlertWouldBlock) with false;
    change (10 =? AlertCloseNotify) with false; change (50 =? AlertCloseNotify) with false; cbv iota; intros [= <- <-]; auto.
Qed.
