(** A client and a server that complete a handshake with each other agree. *)
From Verif Require Import Base Syntax Frame Record Handshake Crypto CryptoSpec CryptoProofs Messages MessageProofs Pki Negotiation NegotiationProofs Machine MachineProofs Cookie Client Server StepProofs Conn RunSpec RunProofs TraceProofs SessionSpec HelloProofs ClientRun ServerSession PropServer AgreeSpec.

(** ** Messages *)

Lemma same_type m m' : same_message m m' -> hm_type m = hm_type m'.
Proof. intros [H _]. apply (f_equal (hd x00)) in H. exact H. Qed.
Lemma same_retry m m' : same_message m m' -> is_retry m = is_retry m'.
Proof. intros S. unfold is_retry. rewrite (same_type _ _ S). destruct S as [_ ->]. reflexivity. Qed.
Lemma same_marshals l l' : Forall2 same_message l l' -> marshals l = marshals l'.
Proof. induction 1 as [|m m' l l' [S _] _ IH]; [reflexivity|]. rewrite !marshals_cons. congruence. Qed.

Lemma sends_app a b : sent (a ++ b) = sent a ++ sent b.
Proof. apply flat_map_app. Qed.
Lemma receives_app a b : received (a ++ b) = received a ++ received b.
Proof. apply flat_map_app. Qed.
Lemma sent_sent l : sent (map Sent l) = l.
Proof. unfold sent, received. induction l; cbn; congruence. Qed.
Lemma sent_received l : sent (map Received l) = [].
Proof. unfold sent, received. induction l; cbn; congruence. Qed.
Lemma received_received l : received (map Received l) = l.
Proof. unfold sent, received. induction l; cbn; congruence. Qed.
Lemma received_sent l : received (map Sent l) = [].
Proof. unfold sent, received. induction l; cbn; congruence. Qed.
Lemma encoding_app a b : encoding (a ++ b) = encoding a ++ encoding b.
Proof. unfold encoding. now rewrite map_app, concat_app. Qed.
Lemma encoding_sent l : encoding (map Sent l) = marshals l.
Proof. unfold encoding, marshals. now rewrite map_map. Qed.
Lemma encoding_received l : encoding (map Received l) = marshals l.
Proof. unfold encoding, marshals. now rewrite map_map. Qed.

(** ** Alignment *)

Lemma forall2_same_types (R : Byte.byte -> Prop) l l' : Forall2 same_message l l' -> Forall (fun m => R (hm_type m)) l -> Forall (fun m => R (hm_type m)) l'.
Proof. induction 1 as [|m m' l l' S _ IH]; intros F; [constructor|]. inversion F; subst. constructor; [now rewrite <- (same_type _ _ S)|auto]. Qed.
(** All of what was sent up to a Finished is received if a Finished is. *)
Lemma up_to_finished s sfin r fin : delivered (s ++ [sfin]) (r ++ [fin]) -> is_type fin 20 -> Forall (fun m => ~ is_type m 20) s ->
  Forall2 same_message s r /\ same_message sfin fin.
Proof.
  intros (a & rest & Ea & F) T N. apply Forall2_app_inv_r in F. destruct F as (a1 & a2 & F1 & F2 & ->). inversion F2 as [|m ? l ? S F3]; subst. inversion F3; subst.
  destruct rest as [|e rest _] using rev_ind.
  - rewrite app_nil_r in Ea. apply app_inj_tail in Ea. destruct Ea as [-> ->]. auto.
  - rewrite app_assoc in Ea. apply app_inj_tail in Ea. destruct Ea as [-> _]. exfalso. apply Forall_app in N. destruct N as [N _]. apply Forall_app in N. destruct N as [_ N].
    inversion N; subst. apply same_type in S. unfold is_type in *. congruence.
Qed.
Lemma split_types t l1 : forall r1 l2 r2, Forall2 same_message (l1 ++ r1) (l2 ++ r2) -> Forall (fun m => is_type m t) l1 -> Forall (fun m => is_type m t) l2 ->
  Forall (fun m => ~ is_type m t) r1 -> Forall (fun m => ~ is_type m t) r2 -> Forall2 same_message l1 l2 /\ Forall2 same_message r1 r2.
Proof.
  induction l1 as [|m l1 IH]; intros r1 l2 r2 F A B C D; destruct l2 as [|m' l2]; cbn [app] in F.
  - auto.
  - exfalso. inversion F; subst. inversion B; subst. inversion C; subst. match goal with S : same_message _ _ |- _ => apply same_type in S end. unfold is_type in *. congruence.
  - exfalso. inversion F; subst. inversion A; subst. inversion D; subst. match goal with S : same_message _ _ |- _ => apply same_type in S end. unfold is_type in *. congruence.
  - inversion F; subst. inversion A; subst. inversion B; subst. destruct (IH r1 l2 r2); auto.
Qed.
Lemma forall2_last (a : list hmsg) x b y : Forall2 same_message (a ++ [x]) (b ++ [y]) -> Forall2 same_message a b /\ same_message x y.
Proof.
  intros F. apply Forall2_app_inv_r in F. destruct F as (a1 & a2 & F1 & F2 & Ea). inversion F2 as [|m ? l ? S F3]; subst. inversion F3; subst.
  apply app_inj_tail in Ea. destruct Ea as [-> ->]. auto.
Qed.

(** ** Transcripts *)

Lemma transcript_more H rest : forall evs, Forall (fun m => is_retry m = false) (received rest) -> transcript H (evs ++ rest) = transcript H evs ++ encoding rest.
Proof.
  induction rest as [|e rest IH]; intros evs F; [now rewrite !app_nil_r|].
  replace (evs ++ e :: rest) with ((evs ++ [e]) ++ rest) by now rewrite <- app_assoc. change (encoding (e :: rest)) with (match e with Sent m | Received m => hm_marshal m end ++ encoding rest).
  destruct e as [m|m]; cbn in F.
  - rewrite IH by exact F. rewrite transcript_sent, <- app_assoc. reflexivity.
  - inversion F; subst. rewrite IH by assumption. rewrite transcript_received, <- app_assoc by assumption. reflexivity.
Qed.

(** ** Values in the hellos *)

Lemma hello_decoded cfg ch b ch' : ch_marshal ch = Ok b -> ch_version ch = hello_version cfg -> safeUnmarshal (ch_unmarshal (hello_version cfg)) b = Ok ch' ->
  ch_session ch' = [] /\ ch_suites ch' = ch_suites ch /\ ch_exts ch' = ch_exts ch.
Proof.
  intros M V U.
  assert (ch_unmarshal (hello_version cfg) b = Ok (mkCh (ch_version ch) (ch_random ch) [] (ch_suites ch) (ch_exts ch), List.length b)) as B.
  { unfold hello_version in *. destruct (cf_useDTLS cfg); [apply ch_dtls_back; [rewrite V; discriminate|exact M]|apply ch_tls_back; [exact V|discriminate|exact M]]. }
  unfold safeUnmarshal in U. rewrite B in U. cbn [bind] in U. match type of U with (if ?b then _ else _) = _ => destruct b; [discriminate|] end.
  apply Ok_inj in U. subst ch'. auto.
Qed.
Lemma cookie_not_empty b : cookie_marshal [] <> Ok b.
Proof. vm_compute. discriminate. Qed.
Lemma retry_decoded suite ses token m sh n : retry_with suite ses token m -> sh_unmarshal (hm_body m) = Ok (sh, n) -> ext_value (sh_exts sh) 44 cookie_unmarshal = Some token.
Proof.
  intros (v & k & _ & K & Hm) U. apply sh_back in Hm. rewrite Hm in U. apply Ok_inj in U. apply (f_equal fst) in U. cbn [fst] in U. subst sh. cbn [sh_exts].
  unfold ext_value. cbn [find e_type]. change (43 =? 44) with false. change (44 =? 44) with true. cbv iota. cbn [e_data]. now rewrite (cookie_back _ _ K).
Qed.
Lemma retry_same suite ses token m m' : retry_with suite ses token m -> retry_with suite ses token m' -> hm_body m = hm_body m'.
Proof. intros (v & k & V & K & Hm) (v' & k' & V' & K' & Hm'). rewrite V in V'. apply Ok_inj in V'. rewrite K in K'. apply Ok_inj in K'. subst. congruence. Qed.
Lemma retry_token suite ses m : ~ retry_with suite ses [] m.
Proof. intros (v & k & _ & K & _). exact (cookie_not_empty _ K). Qed.
Lemma framed_same cfg m m' t : cf_useDTLS cfg = false -> framed cfg m -> framed cfg m' -> is_type m t -> is_type m' t -> hm_body m = hm_body m' -> hm_marshal m = hm_marshal m'.
Proof. intros D (A & B) (A' & B') T T' Hb. unfold hm_marshal. unfold is_type in *. now rewrite A, A', D, T, T', B, B', Hb. Qed.

Lemma retries_types cfg psks evs cookie : client_retries cfg psks evs cookie -> Forall (fun m => is_type m 1) (sent evs) /\ Forall (fun m => is_type m 2) (received evs).
Proof.
  induction 1 as [|evs cookie shares hello m sh n cookie' _ [IH1 IH2] (T1 & _) T2]; [split; constructor|].
  rewrite sends_app, receives_app. cbn [sent received flat_map app]. split; apply Forall_app; (split; [assumption|]); constructor; auto.
Qed.
Lemma retried_types Q P cfg pr evs : retried Q P cfg pr evs -> Forall (fun m => is_type m 2) (sent evs) /\ Forall (fun m => is_type m 1) (received evs).
Proof.
  induction 1 as [|evs hello ch m suite s app token _ [IH1 IH2] _ T1 _ T2]; [split; constructor|].
  rewrite sends_app, receives_app. cbn [sent received flat_map List.app]. split; apply Forall_app; (split; [assumption|]); constructor; auto.
Qed.

(** ** Both ends *)

Section Ends.
Variables (Qc Qs : oracle -> Prop) (P : prims) (Xc Xs : pki) (ccfg scfg : config) (cpsks spsks : cache).
Hypothesis no_handler_c : cf_extensionHandler ccfg = None.
Hypothesis no_handler_s : cf_extensionHandler scfg = None.
Hypothesis same_kind : cf_useDTLS ccfg = cf_useDTLS scfg.
Hypothesis groups_once : NoDup (cf_groups (cfg_init ccfg)).
Hypothesis curves : curves_agree Qc Qs P.
Hypothesis psk_shared : shared_psk ccfg scfg cpsks spsks.
Hypothesis tokens : inverts Qs.
Hypothesis tls_cookies : cf_requireCookie scfg = true -> cf_useDTLS scfg = false.

Lemma versions_same : hello_version ccfg = hello_version scfg.
Proof. unfold hello_version. now rewrite same_kind. Qed.

Lemma prefix_same hellos cookie shares hello before hello' ch x pr suite s pre :
  client_retries ccfg cpsks hellos cookie -> offers ccfg cpsks cookie shares hello -> retried Qs P scfg pr before ->
  Forall2 same_message (sent hellos) (received before) -> Forall2 same_message (sent before) (received hellos) -> same_message hello hello' ->
  safeUnmarshal (ch_unmarshal (hello_version scfg)) (hm_body hello') = Ok ch -> hello_reads (ch_exts ch) x ->
  cipherSuiteMap suite = Some s -> server_prefix Qs scfg pr suite (ch_session ch) (cx_cookie x) pre ->
  pre = transcript (digest P (s_hash s)) hellos.
Proof.
  intros Cr Of Rt F1 F2 [_ Sb] U Rd Cs Px. rewrite <- Sb in U.
  destruct Of as (_ & _ & ch0 & M0 & V0 & X0). rewrite versions_same in V0. destruct (hello_decoded _ _ _ _ M0 V0 U) as (Ses & _ & Exs). rewrite Ses in Px.
  destruct (X0 no_handler_c) as (_ & V44 & _). destruct Rd as (_ & _ & _ & _ & _ & _ & _ & _ & Rc). rewrite Exs in Rc. unfold value_or in Rc. rewrite V44 in Rc. clear V44 X0.
  inversion Cr as [|evs0 cookie0 shares1 hello1 m1 sh1 n1 cookie1 Cr0 Of1 T1 Ir U1 V1]; subst.
  - rewrite Rc in Px. inversion Px as [Z|o h Qo Ch G|token ck Ne O Ck Z|token ck m0 Ne O Ck Z]; subst; [reflexivity|reflexivity|now destruct Ne..].
  - rewrite sends_app in F1. rewrite receives_app in F2. inversion Rt as [|evs1 hello1' ch1 m1' suite1 s1 app token Rt0 Rq T1' U1' T2' Ir' Fr Cs1 Se Rw]; subst.
    { inversion F1 as [Z|]. destruct (sent evs0); discriminate. }
    rewrite receives_app in F1. rewrite sends_app in F2. cbn [sent received flat_map List.app] in F1, F2.
    apply forall2_last in F1, F2. destruct F1 as [_ [M1 B1]], F2 as [_ [M2 B2]]. specialize (Rw no_handler_s). specialize (V1 no_handler_c).
    rewrite <- B1 in U1'. destruct Of1 as (Ty1 & _ & ch0' & M0' & V0' & _). rewrite versions_same in V0'. destruct (hello_decoded _ _ _ _ M0' V0' U1') as (Ses1 & _ & _). rewrite Ses1 in Rw.
    rewrite <- B2 in U1. rewrite (retry_decoded _ _ _ _ _ _ Rw U1) in V1. apply (f_equal (fun o => match o with Some v => v | None => [] end)) in V1.
    rewrite <- V1 in Px. assert (token <> []) as Nt. { intros ->. exact (retry_token _ _ _ Rw). }
    inversion Px as [Z|o h Qo Ch G|tk ck Ne O Ck Z|tk ck m0 Ne O Ck Z T0 I0 F0 W0]; subst; try congruence.
    pose proof (opens_sealed _ _ _ _ _ _ tokens O Se) as Ec. subst ck. cbn [co_hash co_suite] in *.
    assert (s1 = s) as -> by congruence. specialize (W0 no_handler_s).
    replace (evs0 ++ [Sent hello1; Received m1]) with ((evs0 ++ [Sent hello1]) ++ [Received m1]) by now rewrite <- app_assoc.
    rewrite transcript_retry by assumption. rewrite M1, <- M2. f_equal.
    eapply framed_same; [exact (tls_cookies Rq)|exact F0|exact Fr|exact T0|exact T2'|]. exact (retry_same _ _ _ _ _ W0 Rw).
Qed.

Lemma in_once (shares : list kshare) a b : NoDup (map ks_group shares) -> In a shares -> In b shares -> ks_group a = ks_group b -> a = b.
Proof.
  induction shares as [|k l IH]; intros N A B G; [destruct A|]. inversion N; subst. destruct A as [->|A], B as [->|B]; auto.
  - exfalso. apply H1. rewrite G. now apply in_map.
  - exfalso. apply H1. rewrite <- G. now apply in_map.
Qed.
Lemma dhe_same h shares share dh dh' x : map ks_group shares = cf_groups (cfg_init ccfg) -> cx_shares x = shares ->
  client_dhe Qc P h shares share dh -> server_dhe Qs P (cf_groups (cfg_init scfg)) (cx_shares x) h share dh' -> dh = dh'.
Proof.
  intros G -> C S. inversion S as [|ks pub priv d I Ig (o & i & Qo & Ns) Ka]; subst; [inversion C; reflexivity|].
  assert (forall pubc privc, own_key Qc P (ks_group ks) pubc privc -> In (mkKs (ks_group ks) pubc) shares -> keyAgreement P (ks_group ks) pub privc = Ok dh') as A.
  { intros pubc privc Oc Ic. rewrite <- G in groups_once. pose proof (f_equal ks_data (in_once _ _ _ groups_once I Ic eq_refl)) as Kd. cbn [ks_data] in Kd. rewrite Kd in Ka.
    destruct (in_dec N.eq_dec (ks_group ks) ffdhe_groups) as [F|F].
    - destruct Oc as (oc & ic & _ & Nc). destruct (ffdhe_agree P _ _ _ _ _ _ _ F Ns Nc) as (z & K1 & K2 & _). congruence.
    - eapply curves; [exact F|exact Oc|exists o, i; split; [exact Qo|exact Ns]|exact Ka]. }
  inversion C as [|ks' pubc privc d Oc Ic Kc|ks' pubc privc e Oc Ic Kc]; subst; cbn [ks_group ks_data] in *; rewrite (A _ _ Oc Ic) in Kc; congruence.
Qed.
Lemma early_same cookie shares hello x ch s suite sel allowed es es' : offers ccfg cpsks cookie shares hello ->
  safeUnmarshal (ch_unmarshal (hello_version scfg)) (hm_body hello) = Ok ch -> hello_reads (ch_exts ch) x -> In suite (ch_suites ch) -> cipherSuiteMap suite = Some s ->
  client_early P (start_cache ccfg cpsks) (cf_serverName ccfg) (hash_of P s) (match sel with Some i => i =? 0 | None => false end) es ->
  server_early_secret P (start_cache scfg spsks) (cx_psk x) allowed (hash_of P s) sel es' -> es = es' /\ is_some sel = match sel with Some i => i =? 0 | None => false end.
Proof.
  intros (_ & _ & ch0 & M0 & V0 & X0) U Rd Is Cs C S. rewrite versions_same in V0. destruct (hello_decoded _ _ _ _ M0 V0 U) as (_ & Su & Exs).
  destruct (X0 no_handler_c) as (_ & _ & V41). destruct Rd as (_ & _ & _ & _ & _ & Rp & _). rewrite Exs in Rp. rewrite Su in Is. unfold value_or in Rp.
  inversion S as [|j id b key s' context Ni Nb G Sm _ _]; subst; [inversion C; subst; auto|].
  destruct (cache_get (start_cache ccfg cpsks) (cf_serverName ccfg)) as [ck|] eqn:Gc.
  - destruct V41 as ((age & binder & V41) & Hs). rewrite V41 in Rp. rewrite Rp in Ni. cbn [fst] in Ni. destruct j as [|j]; [|destruct j; discriminate]. injection Ni as <-. cbn [pi_identity] in G.
    change (N.of_nat 0 mod 2 ^ 16 =? 0) with true in *. split; [|reflexivity]. inversion C as [|key0 s0 G0 S0|G0]; subst; [|congruence]. rewrite Gc in G0. injection G0 as <-.
    rewrite (psk_shared _ _ Gc G). f_equal. unfold hash_of. now rewrite (Hs _ _ _ Is Cs S0).
  - rewrite V41 in Rp. rewrite Rp in Ni. destruct j; discriminate.
Qed.

Lemma all_received (R : hmsg -> Prop) l : Forall (fun e => exists m, e = Received m /\ R m) l -> exists ms, l = map Received ms /\ Forall R ms.
Proof. induction 1 as [|e l (m & -> & Rm) _ (ms & -> & F)]; [exists []; auto|]. exists (m :: ms). split; [reflexivity|]. now constructor. Qed.
Lemma all_sent (R : hmsg -> Prop) l : Forall (fun e => exists m, e = Sent m /\ R m) l -> exists ms, l = map Sent ms /\ Forall R ms.
Proof. induction 1 as [|e l (m & -> & Rm) _ (ms & -> & F)]; [exists []; auto|]. exists (m :: ms). split; [reflexivity|]. now constructor. Qed.
Lemma client_flight k evs flight : (if p_usingPSK (sc_params k) then exists eem, flight = [Received eem] /\ is_type eem 8 /\ sc_peer k = [] /\ sc_chains k = []
     else server_certified Qc P Xc ccfg (sc_suite k) evs flight (sc_peer k) (sc_chains k)) ->
  exists ms, flight = map Received ms /\ Forall (fun m => is_type m 8 \/ is_type m 13 \/ is_type m 11 \/ is_type m 15) ms.
Proof.
  destruct (p_usingPSK (sc_params k)).
  - intros (eem & -> & T & _). exists [eem]. split; [reflexivity|]. constructor; [now left|constructor].
  - intros (before & certm & cvm & cert & cv & leaf & rest & -> & F & T1 & T2 & _). apply (all_received (fun m => is_type m 8 \/ is_type m 13)) in F.
    destruct F as (ms & -> & F). exists (ms ++ [certm; cvm]). split; [now rewrite map_app|]. apply Forall_app. split; [eapply Forall_impl; [|exact F]; cbn; tauto|].
    constructor; [tauto|]. constructor; [tauto|constructor].
Qed.
Lemma client_auth_received s t auth peer : client_messages Qs P Xs scfg s t auth peer -> exists ms, auth = map Received ms /\ Forall (fun m => is_type m 11 \/ is_type m 15) ms.
Proof.
  intros [|certm cert A B C|certm cert cvm cv leaf rest o Qo A B C D F G V].
  - exists []. auto.
  - exists [certm]. split; [reflexivity|]. constructor; [now left|constructor].
  - exists [certm; cvm]. split; [reflexivity|]. constructor; [now left|]. constructor; [now right|constructor].
Qed.
Lemma types_not (R : Byte.byte -> Prop) t l : Forall (fun m => R (hm_type m)) l -> ~ R (b8 t) -> Forall (fun m => ~ is_type m t) l.
Proof. intros F N. eapply Forall_impl; [|exact F]. cbn. unfold is_type. intros m Rm Tm. rewrite Tm in Rm. contradiction. Qed.

Theorem runs_agree cevs sevs k k' : client_run Qc P Xc ccfg cpsks cevs k -> server_run Qs P Xs scfg spsks sevs k' ->
  delivered (sent cevs) (received sevs) -> delivered (sent sevs) (received cevs) -> agree P k k'.
Proof.
  intros C S Dc Ds.
  destruct C as (hellos & cookie & shares & hello & shm & eem & flight & fin & last & finm & sh & n & share & exts & es & dh & -> & Cr & Of & Tsh & Rsh & Ush & Cs & Ps & Sel & Udh & Ce & Cd & He & Te & Ue & Ac & Tl & Tfin & Bfin & Tfm & Bfm & Sec & Cl & Au).
  destruct S as (before & hello' & shm' & eem' & flight' & sfin & early & auth & fin' & ch & x & pr & pre & sel & share' & es' & dh' & -> & _ & Rt & Th' & Sh & He' & Ee & Tf' & Tsf & Tfin' & Uc & Rd & Cs' & Is & Px & Up' & Ud' & Se & Sd & Bsf & Ear & Cm & _ & _ & Bf' & Sec' & Cl' & _).
  apply client_flight in Au. destruct Au as (fl & -> & Tfl). apply (all_sent (fun m => is_type m 8 \/ is_type m 11 \/ is_type m 13 \/ is_type m 15)) in Tf'. destruct Tf' as (fl' & -> & Tfl').
  assert (exists me, early = map Received me /\ Forall (fun m => is_type m 5) me) as (me & -> & Tme).
  { destruct (p_usingEarlyData (sc_params k')); [|exists []; auto]. destruct Ear as (m & -> & Tm). exists [m]. auto. }
  apply client_auth_received in Cm. destruct Cm as (au & -> & Tau). clear Ear.
  destruct (retries_types _ _ _ _ Cr) as [Ty1 Ty2]. destruct (retried_types _ _ _ _ _ Rt) as [Ty3 Ty4]. pose proof (proj1 Of) as Th. pose proof (proj1 Sh) as Tsh'.
  destruct fl as [|e8 fl]; [discriminate|]. injection He as ->. destruct fl' as [|e8 fl']; [discriminate|]. injection He' as ->.
  (* what was sent and received *)
  repeat rewrite ?sends_app, ?receives_app in Dc. repeat rewrite ?sends_app, ?receives_app in Ds.
  change (sent (Received fin :: map Sent (last ++ [finm]))) with (sent (map Sent (last ++ [finm]))) in Dc.
  change (received (Received fin :: map Sent (last ++ [finm]))) with (fin :: received (map Sent (last ++ [finm]))) in Ds.
  change (sent (Sent sfin :: map Received me ++ map Received au ++ [Received fin'])) with (sfin :: sent (map Received me ++ map Received au ++ [Received fin'])) in Ds.
  change (received (Sent sfin :: map Received me ++ map Received au ++ [Received fin'])) with (received (map Received me ++ map Received au ++ [Received fin'])) in Dc.
  rewrite !sends_app in Ds. rewrite !receives_app in Dc. rewrite !sent_sent, !sent_received, !received_received, !received_sent in *.
  cbn [sent received flat_map List.app] in Dc, Ds. rewrite ?app_nil_r in Dc, Ds. rewrite <- ?app_assoc in Dc, Ds. cbn [List.app] in Dc, Ds.
  (* they are the same *)
  assert (forall t m, is_type m t -> forall t', b8 t <> b8 t' -> ~ is_type m t') as Ty by (unfold is_type; congruence).
  replace (sent before ++ shm' :: eem' :: fl' ++ [sfin]) with ((sent before ++ [shm'] ++ eem' :: fl') ++ [sfin]) in Ds by (rewrite <- !app_assoc; reflexivity).
  replace (received hellos ++ shm :: eem :: fl ++ [fin]) with ((received hellos ++ [shm] ++ eem :: fl) ++ [fin]) in Ds by (rewrite <- !app_assoc; reflexivity).
  replace (sent hellos ++ hello :: last ++ [finm]) with ((sent hellos ++ [hello] ++ last) ++ [finm]) in Dc by (rewrite <- !app_assoc; reflexivity).
  replace (received before ++ hello' :: me ++ au ++ [fin']) with ((received before ++ [hello'] ++ me ++ au) ++ [fin']) in Dc by (rewrite <- !app_assoc; reflexivity).
  assert (forall l t, (b8 t <> b8 8 /\ b8 t <> b8 11 /\ b8 t <> b8 13 /\ b8 t <> b8 15) -> Forall (fun m => is_type m 8 \/ is_type m 11 \/ is_type m 13 \/ is_type m 15) l -> Forall (fun m => ~ is_type m t) l) as Nf.
  { intros l t N F. eapply Forall_impl; [|exact F]. cbn. unfold is_type. intros m Tm Z. rewrite Z in Tm. tauto. }
  assert (forall l t, (b8 t <> b8 5 /\ b8 t <> b8 11 /\ b8 t <> b8 15) -> Forall (fun m => is_type m 5 \/ is_type m 11 \/ is_type m 15) l -> Forall (fun m => ~ is_type m t) l) as Nl.
  { intros l t N F. eapply Forall_impl; [|exact F]. cbn. unfold is_type. intros m Tm Z. rewrite Z in Tm. tauto. }
  assert (Forall (fun m => is_type m 8 \/ is_type m 11 \/ is_type m 13 \/ is_type m 15) (eem :: fl)) as Tfl2 by (eapply Forall_impl; [|exact Tfl]; cbn; tauto).
  assert (Forall (fun m => is_type m 5 \/ is_type m 11 \/ is_type m 15) (me ++ au)) as Tma.
  { apply Forall_app. split; (eapply Forall_impl; [|eassumption]); cbn; tauto. }
  apply up_to_finished in Ds; [|exact Tfin|]. 2: { apply Forall_app. split; [eapply Forall_impl; [|exact Ty3]; intros m Tm; eapply Ty; [exact Tm|discriminate]|]. constructor; [eapply Ty; [exact Tsh'|discriminate]|]. apply Nf; [repeat split; discriminate|exact Tfl']. }
  apply up_to_finished in Dc; [|exact Tfin'|]. 2: { apply Forall_app. split; [eapply Forall_impl; [|exact Ty1]; intros m Tm; eapply Ty; [exact Tm|discriminate]|]. constructor; [eapply Ty; [exact Th|discriminate]|]. apply Nl; [repeat split; discriminate|exact Tl]. }
  destruct Ds as [Ds Sfin], Dc as [Dc Sfin']. rewrite (app_assoc (sent before)), (app_assoc (received hellos)) in Ds. rewrite (app_assoc (sent hellos)), (app_assoc (received before)) in Dc.
  apply (split_types 2) in Ds; [|apply Forall_app; auto..|apply Nf; [repeat split; discriminate|exact Tfl']|apply Nf; [repeat split; discriminate|exact Tfl2]].
  apply (split_types 1) in Dc; [|apply Forall_app; auto..|apply Nl; [repeat split; discriminate|exact Tl]|apply Nl; [repeat split; discriminate|exact Tma]].
  destruct Ds as [Ds Sfl], Dc as [Dc Sla]. apply forall2_last in Ds, Dc. destruct Ds as [Sb Sshm], Dc as [Sa Shello].
  inversion Sfl as [|? ? ? ? See Sfl2]; subst. clear Ty Nf Nl.
  (* parameters *)
  destruct Sh as (_ & random & sexts & Msh & Vsh). destruct (Vsh no_handler_s) as [V41 V51]. clear Vsh. rewrite (proj2 Sshm) in Msh. apply sh_back in Msh. rewrite Msh in Ush.
  apply Ok_inj in Ush. apply (f_equal fst) in Ush. cbn [fst] in Ush. subst sh. cbn [sh_suite sh_exts] in *. destruct (Sel no_handler_c) as [Upk Ushare]. rewrite V41 in Upk. rewrite V51 in Ushare. rewrite <- Ushare in Sd, Ud'. clear Ushare V51.
  assert (sc_suite k = sc_suite k') as Es by congruence. rewrite Es in *.
  destruct Ee as (_ & exts' & Mee & Ac'). rewrite (proj2 See) in Mee. apply ee_back in Mee. unfold safeUnmarshal in Ue. rewrite Mee in Ue. cbn [bind] in Ue.
  match type of Ue with (if ?b then _ else _) = _ => destruct b; [discriminate|] end. apply Ok_inj in Ue. subst exts'. destruct (Ac no_handler_c) as [Ue1 Ue2]. destruct (Ac' no_handler_s) as [Ue3 Ue4].
  specialize (Rd no_handler_s). rewrite Upk in Ce.
  pose proof (prefix_same _ _ _ _ _ _ _ _ _ _ _ _ Cr Of Rt Sa Sb Shello Uc Rd Cs' Px) as Ep.
  rewrite <- (proj2 Shello) in Uc. destruct (early_same _ _ _ _ _ _ _ _ _ _ _ Of Uc Rd Is Cs' Ce Se) as [Ees Eis].
  assert (cx_shares x = shares) as Ex.
  { destruct Of as (_ & _ & ch0 & M0 & V0 & X0). rewrite versions_same in V0. destruct (hello_decoded _ _ _ _ M0 V0 Uc) as (_ & _ & Exs). destruct (X0 no_handler_c) as (V & _).
    destruct Rd as (_ & _ & _ & _ & R & _). rewrite R, Exs. unfold value_or. now rewrite V. }
  pose proof (dhe_same _ _ _ _ _ _ (proj1 (proj2 Of)) Ex Cd Sd) as Edh. subst es' dh'.
  (* transcripts *)
  unfold hash_of in Sec. cbn [rh_hash] in Sec. fold (hash_of P (sc_suite k')) in Sec. rewrite <- !(app_assoc hellos) in Sec.
  assert (forall l, Forall (fun m => is_type m 8 \/ is_type m 11 \/ is_type m 13 \/ is_type m 15) l -> Forall (fun m => is_retry m = false) l) as Nr.
  { intros l F. eapply Forall_impl; [|exact F]. intros m [T|[T|[T|T]]]; (eapply not_retry; [exact T|reflexivity]). }
  assert (forall l, Forall (fun m => is_retry m = false) (received ([Sent hello; Received shm] ++ map Received (eem :: fl) ++ Received fin :: map Sent l))) as Nt.
  { intros l. rewrite !receives_app, received_received. change (received (Received fin :: map Sent l)) with (fin :: received (map Sent l)). rewrite received_sent.
    constructor; [exact Rsh|]. apply Forall_app. split; [apply Nr; exact Tfl2|]. constructor; [eapply not_retry; [exact Tfin|reflexivity]|constructor]. }
  rewrite (transcript_more _ _ _ (Nt [])), (transcript_more _ _ _ (Nt (last ++ [finm]))), <- Ep in Sec.
  assert (encoding ([Sent hello; Received shm] ++ map Received (eem :: fl) ++ [Received fin]) = encoding ([Received hello'; Sent shm'] ++ map Sent (eem' :: fl') ++ [Sent sfin])) as T1.
  { rewrite !encoding_app, encoding_received, encoding_sent, (same_marshals _ _ Sfl). unfold encoding. cbn [map concat]. now rewrite (proj1 Shello), (proj1 Sshm), (proj1 Sfin). }
  assert (encoding ([Sent hello; Received shm] ++ map Received (eem :: fl) ++ Received fin :: map Sent (last ++ [finm])) =
    encoding ([Received hello'; Sent shm'] ++ map Sent (eem' :: fl') ++ Sent sfin :: map Received me ++ map Received au ++ [Received fin'])) as T2.
  { change (Received fin :: map Sent (last ++ [finm])) with ([Received fin] ++ map Sent (last ++ [finm])).
    change (Sent sfin :: map Received me ++ map Received au ++ [Received fin']) with ([Sent sfin] ++ map Received me ++ map Received au ++ [Received fin']).
    replace (map Received me ++ map Received au ++ [Received fin']) with (map Received ((me ++ au) ++ [fin'])) by (rewrite !map_app, <- app_assoc; reflexivity).
    rewrite !app_assoc, (encoding_app _ (map Sent _)), (encoding_app _ (map Received ((me ++ au) ++ _))), <- !app_assoc, T1. f_equal.
    rewrite encoding_received, encoding_sent, !marshals_app, (same_marshals _ _ Sla), !marshals_one. rewrite (proj1 Sfin'). now rewrite marshals_app, app_assoc. }
  change (Received fin :: map Sent []) with [Received fin] in Sec. rewrite T1, T2 in Sec. split; [rewrite Es; exists es, dh; eauto|]. repeat split; congruence.
Qed.
End Ends.
