(** The states of a server with the steps that led to them. *)
From Verif Require Import Base Frame Record Handshake Crypto CryptoSpec CryptoProofs Messages Pki SigSpec SigProofs Negotiation NegotiationSpec NegotiationProofs Machine MachineProofs CtxProofs Client Cookie Server StepProofs Conn ConnSpec ConnProofs RunSpec RunProofs TraceProofs SessionSpec SessionProofs HelloProofs ClientRun.

Lemma encoding_app a b : encoding (a ++ b) = encoding a ++ encoding b.
Proof. unfold encoding. now rewrite map_app, concat_app. Qed.
Lemma encoding_sent l : encoding (map Sent l) = marshals l.
Proof. induction l as [|m l IH]; [reflexivity|]. cbn [map]. rewrite marshals_cons, <- IH. reflexivity. Qed.
Lemma encoding_one e : encoding [e] = match e with Sent m | Received m => hm_marshal m end.
Proof. unfold encoding. cbn [map concat]. apply app_nil_r. Qed.

Section Server.
Variables (Q : oracle -> Prop) (E : env) (cfg : config) (psks : cache) (pr : N).
Notation P := (v_prims E).
Notation X := (v_pki E).
Notation H ps := (digest P (s_hash ps)).

Definition s_cfg (w : world) : Prop :=
  ((w_cfg w = cfg_init cfg \/ cf_cookieProtector cfg = None /\ w_cfg w = set_protector (cfg_init cfg) (Some pr)) /\ protects cfg pr) /\ w_psks w = start_psks cfg psks.
Definition at_negotiated (evs : list event) (w : world) (n : snegotiated) : Prop :=
  exists evs0 o w0 w1 hm, Q o /\ retried Q P cfg pr evs0 /\ s_cfg w0 /\ w_kind w0 = (cf_useDTLS cfg, cf_useDTLS cfg) /\ server_start P X o w0 hm = (w1, Ok (SNegotiated n, [], false)) /\ kept w1 w /\ evs = evs0 ++ [Received hm].
(** The server's flight was sent, and [more] received. *)
Definition keys_state (s : hstate) (k : skeys) : Prop :=
  s = if p_usingEarlyData (sk_params k) then SWaitEOED k else if p_rejectedEarlyData (sk_params k) then SReadPastEarlyData (SWaitFlight2 k) else SWaitFlight2 k.
Definition replied (evs : list event) (w : world) (k : skeys) (more : list event) : Prop :=
  exists evs0 o w0 w1 n s acts, Q o /\ at_negotiated evs0 w0 n /\ server_negotiated P X o w0 n = (w1, Ok (s, acts, false)) /\ keys_state s k /\
    evs = (evs0 ++ map Sent (sent_of acts)) ++ more /\ w_hash w = w_hash w1 ++ encoding more /\ s_cfg w.
Definition eoed (k : skeys) (more : list event) : Prop :=
  if p_usingEarlyData (sk_params k) then exists m, more = [Received m] /\ is_type m 5 else more = [].
Definition client_cert (k : skeys) (certm : hmsg) (cert : certificate) : Prop :=
  p_usingClientAuth (sk_params k) = true /\ is_type certm 11 /\ safeUnmarshal (cert_unmarshal (x_parses X)) (hm_body certm) = Ok cert.
Definition client_part (w : world) (k : skeys) (auth : list event) (peer : list bytes) : Prop :=
  (p_usingClientAuth (sk_params k) = false /\ auth = [] /\ peer = []) \/
  (exists certm cert, client_cert k certm cert /\ auth = [Received certm] /\ ct_list cert = [] /\ peer = []) \/
  (exists certm cert cvm cv leaf rest before o, client_cert k certm cert /\ auth = [Received certm; Received cvm] /\ is_type cvm 15 /\
     safeUnmarshal cv_unmarshal (hm_body cvm) = Ok cv /\ map ce_cert (ct_list cert) = leaf :: rest /\ peer = leaf :: rest /\
     w_hash w = before ++ hm_marshal cvm /\ Q o /\ cv_verify P X cv leaf (H (sk_suite k) before) = Ok tt /\ peer_ok o (cfg_init cfg) (leaf :: rest) [] = true).
Definition at_finish (evs : list event) (w : world) (k : skeys) (peer : list bytes) : Prop :=
  exists more auth, replied evs w k (more ++ auth) /\ eoed k more /\ client_part w k auth peer.
Definition server_at (evs : list event) (w : world) (s : hstate) : Prop :=
  match s with
  | SStart => s_cfg w /\ retried Q P cfg pr evs
  | SNegotiated n => at_negotiated evs w n
  | SWaitEOED k => replied evs w k [] /\ p_usingEarlyData (sk_params k) = true
  | SReadPastEarlyData nx => exists k, nx = SWaitFlight2 k /\ replied evs w k [] /\ p_usingEarlyData (sk_params k) = false
  | SWaitFlight2 k => exists more, replied evs w k more /\ eoed k more
  | SWaitCert k => exists more, replied evs w k more /\ eoed k more /\ p_usingClientAuth (sk_params k) = true
  | SWaitCV k cert => exists more certm, replied evs w k (more ++ [Received certm]) /\ eoed k more /\ client_cert k certm cert
  | SWaitFinished k peer => at_finish evs w k peer
  | Connected c => exists evs0 w0 w1 k peer fin acts, at_finish evs0 w0 k peer /\ server_wait_finished P w0 k peer fin = (w1, Ok (Connected c, acts, false)) /\
      kept w1 w /\ evs = evs0 ++ [Received fin]
  | _ => False
  end.

Lemma s_cfg_kept w w' : s_cfg w -> kept w w' -> s_cfg w'.
Proof. intros [A B] (_ & K1 & K2 & _). split; [|congruence]. rewrite K1. exact A. Qed.
Lemma replied_kept evs w w' k more : replied evs w k more -> kept w w' -> replied evs w' k more.
Proof.
  intros (evs0 & o & w0 & w1 & n & s & acts & Qo & A & B & C & D & F & G) K. exists evs0, o, w0, w1, n, s, acts.
  repeat (split; [assumption|]). split; [|eapply s_cfg_kept; eauto]. destruct K as (K & _). congruence.
Qed.
Lemma replied_more evs w w' k more m : replied evs w k more -> w_hash w' = w_hash w ++ hm_marshal m -> w_cfg w' = w_cfg w -> w_psks w' = w_psks w ->
  replied (evs ++ [Received m]) w' k (more ++ [Received m]).
Proof.
  intros (evs0 & o & w0 & w1 & n & s & acts & Qo & A & B & C & D & F & G) K1 K2 K3. exists evs0, o, w0, w1, n, s, acts.
  repeat (split; [assumption|]). split; [now rewrite D, app_assoc|]. split; [now rewrite K1, F, encoding_app, encoding_one, app_assoc|].
  destruct G as [G1 G2]. split; [|congruence]. rewrite K2. exact G1.
Qed.
Lemma client_part_kept w w' k auth peer : client_part w k auth peer -> kept w w' -> client_part w' k auth peer.
Proof.
  intros C (K & _). unfold client_part in *. rewrite K. exact C.
Qed.
Lemma at_finish_kept evs w w' k peer : at_finish evs w k peer -> kept w w' -> at_finish evs w' k peer.
Proof. intros (more & auth & A & B & C) K. exists more, auth. split; [eapply replied_kept; eauto|]. split; [exact B|eapply client_part_kept; eauto]. Qed.
Lemma server_at_kept evs w w' s : server_at evs w s -> kept w w' -> server_at evs w' s.
Proof.
  intros A K. destruct s; cbn [server_at] in *; try exact A.
  - destruct A as [A B]. split; [eapply s_cfg_kept; eauto|exact B].
  - destruct A as (evs0 & o & w0 & w1 & hm & Qo & Fr & A & Kw & B & C & D). exists evs0, o, w0, w1, hm. repeat (split; [assumption|]). split; [eapply kept_trans; eauto|exact D].
  - destruct A as [A B]. split; [eapply replied_kept; eauto|exact B].
  - destruct A as (k & -> & A & B). exists k. split; [reflexivity|]. split; [eapply replied_kept; eauto|exact B].
  - destruct A as (more & A & B). exists more. split; [eapply replied_kept; eauto|exact B].
  - destruct A as (more & A & B). exists more. split; [eapply replied_kept; eauto|exact B].
  - destruct A as (more & certm & A & B). exists more, certm. split; [eapply replied_kept; eauto|exact B].
  - eapply at_finish_kept; eauto.
  - destruct A as (evs0 & w0 & w1 & k & peer & fin & acts & A & B & C & D). exists evs0, w0, w1, k, peer, fin, acts.
    repeat (split; [assumption|]). split; [eapply kept_trans; eauto|exact D].
Qed.
Lemma peer_ok_cfg o w certs chains : s_cfg w -> peer_ok o (w_cfg w) certs chains = peer_ok o (cfg_init cfg) certs chains.
Proof. intros [[[->|[_ ->]] _] _]; reflexivity. Qed.

Lemma s_cfg_same w : s_cfg w -> cf_cookieHandler (w_cfg w) = cf_cookieHandler cfg /\ cf_requireCookie (w_cfg w) = cf_requireCookie cfg /\
  cf_extensionHandler (w_cfg w) = cf_extensionHandler cfg /\ cf_requireClientAuth (w_cfg w) = cf_requireClientAuth cfg /\ cf_groups (w_cfg w) = cf_groups (cfg_init cfg) /\
  (forall p, cf_cookieProtector (w_cfg w) = Some p -> p = pr).
Proof. intros [[[->|[N ->]] Pr] _]; repeat split; intros q Hq; [symmetry; exact (Pr q Hq)|cbn in Hq; congruence]. Qed.
Lemma hrr_with o w suite ses token w' m : generateHRR o w suite ses token = (w', Ok m) -> is_type m 2 /\ is_retry m = true /\
  (w_kind w = (cf_useDTLS cfg, cf_useDTLS cfg) -> framed cfg m) /\ (cf_extensionHandler (w_cfg w) = None -> retry_with suite ses token m).
Proof.
  intros G. apply generate_hrr_ok in G. destruct G as (l & exts & A & S & M & _). destruct (retry_made _ _ _ _ _ _ _ M) as [M1 M2].
  split; [exact M2|]. split; [exact M1|]. split.
  { destruct M as (_ & _ & _ & Md & _ & Ml & _). unfold w_kind. intros [= _ K]. split; [congruence|exact Ml]. }
  intros Nh. unfold ext_send in S. rewrite Nh in S. apply Ok_inj in S. subst exts.
  inv_bind A as l1 A1. unfold el_add in A1, A. inv_bind A1 as versions V. inv_bind A as ck C. cbn [el_replace app] in A1. apply Ok_inj in A1. subst l1.
  cbn [el_replace e_type] in A. change (etSupportedVersions =? etCookie) with false in A. cbn [option_map app] in A. apply Ok_inj in A. subst l.
  exists versions, ck. split; [exact V|]. split; [exact C|]. rewrite <- sentinel_random. exact (proj1 M).
Qed.
Lemma retry_step o evs w w1 ch0 ch suite hello token w' hrr : Q o -> s_cfg w -> retried Q P cfg pr evs -> is_type hello 1 -> w_cfg w1 = w_cfg w ->
  w_kind w1 = (cf_useDTLS cfg, cf_useDTLS cfg) -> safeUnmarshal (ch_unmarshal (hello_version cfg)) (hm_body hello) = Ok ch0 -> ch_session ch = ch_session ch0 ->
  server_retry P o w1 ch suite hello token = (w', Ok (hrr, true)) -> exists m, hrr = Some m /\ retried Q P cfg pr (evs ++ [Received hello; Sent m]).
Proof.
  intros Qo S R T W Kw U Hs Sr. destruct (s_cfg_same _ S) as (_ & Hr & He & _ & _ & Hp). apply server_retry_ok in Sr. destruct Sr as [_ Sr]. rewrite W, Hr in Sr.
  destruct (cf_requireCookie cfg) eqn:Rq; [|destruct Sr; discriminate]. destruct token; [|destruct Sr; discriminate].
  destruct Sr as [(t & m & C & -> & _ & G)|(_ & _ & Z)]; [|discriminate]. exists m. split; [reflexivity|].
  apply new_cookie_ok in C. destruct C as (app & s & p & plain & Cs & Cm & Cp & Ct). apply Hp in Cp. subst p. apply hrr_with in G. destruct G as (G1 & G2 & G4 & G3). rewrite W, He, Hs in G3.
  eapply (retried_more Q P cfg pr evs hello ch0 m suite s app t); try eassumption; [exact (G4 Kw)|]. exists o, plain. auto.
Qed.
End Server.

Section Path.
Variables (Q : oracle -> Prop) (E : env) (cfg : config) (psks : cache).
Notation P := (v_prims E).
Notation X := (v_pki E).
Theorem server_path client evs s w : path Q E cfg psks client evs s w -> client = false -> exists pr, server_at Q E cfg psks pr evs w s.
Proof.
  intros Pa. induction Pa as [o w w' s acts retry Qo Hc Hp Hk Cs|w Hw Hp Hk|client o fuel evs s w w' s' acts retry Pa IH Qo Nc N|client evs s w w' Pa IH K]; intros R; try discriminate.
  - destruct Hw as [Hw|[Nn [p Hw]]].
    + exists (match cf_cookieProtector cfg with Some p => p | None => 0 end). split; [|constructor]. split; [|exact Hp]. split; [left; exact Hw|]. intros p Hq. now rewrite Hq.
    + exists p. split; [|constructor]. split; [|exact Hp]. split; [right; auto|]. intros q Hq. congruence.
  - specialize (IH R). destruct IH as [pr IH]. exists pr. assert (forall w1 hm, hr_read fuel o w = (w1, Ok hm) -> server_at Q E cfg psks pr evs w1 s) as IHr.
    { intros w1 hm Hr. eapply server_at_kept; [exact IH|]. eapply kept_hr; eauto. }
    pose proof (server_follows _ _ _ _ _ _ _ _ Pa R) as [_ O].
    destruct s as [st|ws|k|k|k cr|k cert cr|k certs cr peer chains| |n|k|nx|k|k|k cert|k peer|c]; cbn [sstate_ok] in O; try contradiction; cbn [next read_by] in *.
    + inv_call N as w1 hm H1. rewrite (got_ok _ _ _ _ _ H1). specialize (IHr _ _ H1). cbn [server_at] in IHr. pose proof N as N0.
      pose proof (path_kind _ _ _ _ _ _ _ _ (path_kept _ _ _ _ _ _ _ _ _ Pa (kept_hr _ _ _ _ _ H1))) as Kw.
      pose proof (frame_run _ _ _ _ (frame_server_start w1 P X o w1 hm (frame_refl _)) N) as [Gc Gp].
      apply server_start_ok in N.
      destruct N as (ch & exts & found & x & v & first & dhs & dh & chosen & suite & hrr & again & w2 & w3 & w4 & T & U & _ & _ & _ & _ & _ & _ & _ & _ & Pk & N). cbv zeta in N.
      destruct (pskModeNegotiation _ _ _) as [usingDH usingPSK]. destruct N as (_ & _ & Sr & -> & _ & N). destruct again.
      * destruct N as (-> & _ & ->). cbn [server_at]. destruct IHr as [[A B] F]. split; [split; [rewrite Gc; exact A|congruence]|].
        pose proof (frame_psk w1 P o w1 (set_exts ch exts) x (match first with Some (f, _) => Some f | None => None end) (frame_refl w1)) as Fm. rewrite Pk in Fm.
        pose proof (wx_psk w1 P o w1 (set_exts ch exts) x (match first with Some (f, _) => Some f | None => None end) (wx_refl w1)) as Gm. rewrite Pk in Gm. apply wx_kind in Gm. cbn [fst] in Gm.
        rewrite (wire_version _ _ Kw) in U.
        destruct (retry_step Q E cfg psks pr o evs w1 w2 ch _ _ _ _ _ _ Qo (conj A B) F T (proj1 Fm) (eq_trans Gm Kw) U eq_refl Sr) as (m & -> & Rt). exact Rt.
      * destruct N as (_ & cert & scheme & proto & _ & _ & -> & _ & N). destruct (earlyDataNegotiation _ _ _) as [usingEarly rejected]. subst s'.
        cbn [server_at sent_of map app]. eexists evs, o, w1, w', hm. split; [exact Qo|]. split; [apply IHr|]. split; [apply IHr|]. split; [exact Kw|]. split; [exact N0|]. split; [apply kept_refl|reflexivity].
    + pose proof N as N0. pose proof (frame_run _ _ _ _ (frame_server_negotiated w P X o w n (frame_refl _)) N) as [Gc Gp].
      apply server_negotiated_ok in N. destruct N as (random & hexts & eexts & shm & ps & w3 & w4 & eem & finm & auth & ca & _ & _ & Ts & _ & _ & N). cbv zeta in N.
      destruct (handshake_secrets _ _ _ _ _) as [[chs shs] ms]. destruct N as (_ & Te & _ & _ & _ & Ha & Tf & _ & _ & -> & Es & _ & _).
      assert (s_cfg cfg psks pr w) as Sw.
      { destruct IH as (evs0 & o0 & w0 & w1 & hm & _ & _ & A & _ & B & C & D). pose proof (frame_run _ _ _ _ (frame_server_start w0 P X o0 w0 hm (frame_refl _)) B) as [Fc Fp].
        eapply s_cfg_kept; [|exact C]. destruct A as [A1 A2]. split; [rewrite Fc; exact A1|congruence]. }
      match type of Es with s' = if _ then SWaitEOED ?kk else _ => set (k := kk) in Es end.
      assert (replied Q E cfg psks pr (evs ++ map Sent (sent_of acts)) w' k []) as Rp.
      { exists evs, o, w, w', n, s', acts. split; [exact Qo|]. split; [exact IH|]. split; [exact N0|]. split; [exact Es|]. split; [now rewrite app_nil_r|].
        split; [unfold encoding; cbn; now rewrite app_nil_r|]. destruct Sw as [A1 A2]. split; [rewrite Gc; exact A1|congruence]. }
      cbn [app]. unfold eoed. change (if ca then set_clientAuth (n_params n) else n_params n) with (sk_params k) in Es.
      destruct (p_usingEarlyData (sk_params k)) eqn:Ed; [subst s'; split; assumption|].
      destruct (p_rejectedEarlyData (sk_params k)); subst s'; cbn [server_at].
      * exists k. auto.
      * exists []. split; [exact Rp|]. unfold eoed. now rewrite Ed.
    + inv_call N as w1 u H1. destruct u. inv_call N as w2 hm H2. rewrite (read_eoed _ _ _ _ _ _ H1 H2).
      pose proof (kept_early _ _ _ _ H1) as K1. pose proof (kept_hr _ _ _ _ _ H2) as K2.
      pose proof (frame_run _ _ _ _ (frame_server_wait_eoed w2 P w2 k hm (frame_refl _)) N) as [Gc Gp].
      apply server_wait_eoed_ok in N. destruct N as (T & _ & Hw & _ & -> & ->). destruct IH as [A B]. cbn [server_at sent_of map app].
      exists [Received hm]. split.
      * change [Received hm] with ([] ++ [Received hm]) at 2. eapply replied_more; [eapply replied_kept; [exact A|eapply kept_trans; eauto]|exact Hw|exact Gc|exact Gp].
      * unfold eoed. rewrite B. exists hm. auto.
    + destruct O as [k ->]. pose proof (kept_past _ _ _ _ _ N) as K1. apply server_read_past_ok in N. destruct N as (_ & _ & -> & ->).
      destruct IH as (k' & [= <-] & A & B). cbn [server_at sent_of map app]. rewrite app_nil_r. exists []. split; [eapply replied_kept; eauto|]. unfold eoed. now rewrite B.
    + apply server_wait_flight2_ok in N. destruct N as (-> & _ & -> & ->). destruct IH as (more & A & B). cbn [sent_of map app]. rewrite app_nil_r.
      destruct (p_usingClientAuth (sk_params k)) eqn:Ca; cbn [server_at].
      * exists more. auto.
      * exists more, []. rewrite app_nil_r. split; [exact A|]. split; [exact B|]. left. auto.
    + inv_call N as w1 hm H1. rewrite (got_ok _ _ _ _ _ H1). specialize (IHr _ _ H1). cbn [server_at] in IHr. destruct IHr as (more & A & B & C).
      pose proof (frame_run _ _ _ _ (frame_server_wait_cert w1 X w1 k hm (frame_refl _)) N) as [Gc Gp].
      apply server_wait_cert_ok in N. destruct N as (cert & T & U & Hw & _ & -> & ->). cbn [sent_of map app].
      assert (replied Q E cfg psks pr (evs ++ [Received hm]) w' k (more ++ [Received hm])) as Rp by (eapply replied_more; eauto).
      assert (client_cert E k hm cert) as Cc by (split; [exact C|split; [exact T|exact U]]).
      destruct (ct_list cert) as [|e l] eqn:L; cbn [server_at].
      * exists more, [Received hm]. split; [exact Rp|]. split; [exact B|]. right. left. exists hm, cert. auto.
      * exists more, hm. auto.
    + inv_call N as w1 hm H1. rewrite (got_ok _ _ _ _ _ H1). specialize (IHr _ _ H1). cbn [server_at] in IHr. destruct IHr as (more & certm & A & B & C).
      pose proof (frame_run _ _ _ _ (frame_server_wait_cv w1 P X o w1 k cert hm (frame_refl _)) N) as [Gc Gp].
      apply server_wait_cv_ok in N. destruct N as (cv & leaf & rest & T & U & M & V & Po & Hw & _ & -> & ->). cbn [sent_of map app server_at].
      exists more, [Received certm; Received hm]. split; [|split; [exact B|]].
      * change [Received certm; Received hm] with ([Received certm] ++ [Received hm]). rewrite app_assoc. eapply replied_more; eauto.
      * right. right. exists certm, cert, hm, cv, leaf, rest, (w_hash w1), o. rewrite (peer_ok_cfg cfg psks pr) in Po by (destruct A as (? & ? & ? & ? & ? & ? & ? & _ & _ & _ & _ & _ & _ & A); exact A). auto 12.
    + inv_call N as w1 hm H1. rewrite (got_ok _ _ _ _ _ H1). specialize (IHr _ _ H1). cbn [server_at] in IHr. pose proof N as N0.
      apply server_wait_finished_ok in N. cbv zeta in N. destruct N as (T & _ & _ & -> & -> & ->). cbn [sent_of map app server_at].
      eexists evs, w1, w', k, peer, hm, _. split; [exact IHr|]. split; [exact N0|]. split; [apply kept_refl|reflexivity].
  - destruct (IH R) as [pr A]. exists pr. eapply server_at_kept; [exact A|exact K].
Qed.
End Path.
