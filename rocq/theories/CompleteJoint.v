(** Two compatible ends over a stream: no turn of either fails. *)
From Verif Require Import Base Syntax Frame FrameProofs Record RecordSpec RecordProofs RecordProofs2 HandshakeProofs Timer Handshake DtlsProofs Crypto CryptoSpec CryptoProofs Messages MessageProofs MessageProofs3 Pki Negotiation NegotiationProofs Machine MachineProofs Cookie Client Server StepProofs Conn ConnSpec ConnProofs EarlyProofs RunSpec RunProofs TraceProofs SessionSpec SessionProofs HelloProofs ClientRun ClientSession ServerRun ServerSession AgreeSpec AgreeProofs JointSpec ChannelSpec ChannelProofs WireProofs StillProofs PipeProofs MadeProofs TurnProofs HalfProofs JointHello TicketProofs JointProofs CompleteSpec CrashSpec ForwardProofs CompleteProofs CompleteRun.
Import FrameProofs.
Local Notation kept := RunProofs.kept.

Lemma same_sym m m' : same_message m m' -> same_message m' m.
Proof. intros [A B]. split; congruence. Qed.
Lemma same_heard m : tls_msg m -> same_message m (heard (pair_of m)).
Proof. intros T. now apply pair_same. Qed.
Lemma heard_pair m : heard (pair_of m) = heard (pair_of (heard (pair_of m))).
Proof. reflexivity. Qed.
Lemma wholes_heard l : Forall whole l -> map heard (map pair_of l) = l.
Proof. induction 1 as [|m l W _ IH]; [reflexivity|]. cbn [map]. now rewrite <- W, IH. Qed.
Lemma same_heards l : Forall tls_msg l -> Forall2 same_message l (map heard (map pair_of l)).
Proof. induction 1 as [|m l T _ IH]; cbn [map]; constructor; [now apply same_heard|exact IH]. Qed.
Lemma sames_marshal l l' : Forall2 same_message l l' -> marshals l = marshals l'.
Proof. induction 1 as [|m m' l l' [A _] _ IH]; [reflexivity|]. unfold marshals in *. cbn [map concat]. congruence. Qed.
Lemma sent_reads l : sent (map Received l) = [].
Proof. induction l; [reflexivity|exact IHl]. Qed.
Lemma received_reads l : received (map Received l) = l.
Proof. induction l as [|m l IH]; [reflexivity|]. cbn. now f_equal. Qed.

Section Complete.
Variables (Qc Qs : oracle -> Prop) (E : env) (ccfg scfg : config) (cpsks spsks : cache).
Hypothesis ok : joint_ok Qc Qs E ccfg scfg cpsks spsks.
Hypothesis cp : compatible Qc Qs E ccfg scfg cpsks.
Notation P := (v_prims E).
Notation X := (v_pki E).
Notation csound := (sound Qc E ccfg cpsks true).
Notation ssound := (sound Qs E scfg spsks false).
Notation hello_msg := (hello_msg Qc E ccfg).
Notation flight := (flight Qc Qs E ccfg scfg).
Notation tracks := (tracks Qc E ccfg).
Notation chandler := (jo_chandler _ _ _ _ _ _ _ ok).
Notation shandler := (jo_shandler _ _ _ _ _ _ _ ok).
Notation ctls := (jo_ctls _ _ _ _ _ _ _ ok).
Notation stls := (jo_stls _ _ _ _ _ _ _ ok).
Notation curves := (jo_curves _ _ _ _ _ _ _ ok).
Notation msized := (jo_sized _ _ _ _ _ _ _ ok).
Notation gcm := (jo_gcm _ _ _ _ _ _ _ ok).
Notation phase_hello := (phase_hello).

(** ** What has happened so far *)

Lemma sound_path (Q : oracle -> Prop) cfg psks client evs c s : sound Q E cfg psks client evs c -> c_hState c = Some s -> exists w, path Q E cfg psks client evs s w /\ (not_connected s -> path Q E cfg psks client evs s (c_world c)).
Proof. intros [_ Pa] H. unfold on_path in Pa. rewrite H in Pa. destruct Pa as (w & Pa & K). exists w. split; [exact Pa|]. intros Nc. eapply path_kept; [exact Pa|exact (K Nc)]. Qed.
Lemma client_began ce C s : csound ce C -> c_hState C = Some s -> exists hello tl random shares, ce = Sent hello :: tl /\ hello_msg hello random shares.
Proof.
  intros Sd Hs. destruct (sound_path _ _ _ _ _ _ _ Sd Hs) as (w & Pa & _).
  destruct (client_history Qc Qs E ccfg scfg cpsks cp chandler ctls stls curves _ _ _ _ Pa eq_refl) as (hello & tl & random & shares & A & B & _). eauto 6.
Qed.
(** The server has heard nothing as long as it has not gone on. *)
Lemma fresh ce se C S ts : csound ce C -> ssound se S -> server_new S -> talk ce se ts -> se = [].
Proof.
  intros Sc Sd [Hs|Hs] T.
  - destruct Sd as [_ Pa]. unfold on_path in Pa. rewrite Hs in Pa. apply Pa.
  - destruct (sound_path _ _ _ _ _ _ _ Sd Hs) as (w & Pa & _).
    destruct (server_history Qc Qs E ccfg scfg cpsks spsks cp msized shandler stls _ _ _ _ Pa eq_refl) as [_ [[-> _]|(hm & tl & -> & H)]]; [reflexivity|]. exfalso.
    destruct (talk_parts _ _ _ T) as (a & b & Es & F & _). change (received (Received hm :: tl)) with (hm :: received tl) in F. inversion F as [|hello ? l ? Sm F']; subst.
    destruct (c_hState C) as [s|] eqn:Hc.
    + destruct (client_began _ _ _ Sc Hc) as (hello' & tl' & random & shares & -> & Hm). change (sent (Sent hello' :: tl')) with (hello' :: sent tl') in Es. injection Es as -> _.
      exact (H random shares (hello_same _ _ _ _ _ _ _ Sm Hm) I).
    + destruct Sc as [_ Pc]. unfold on_path in Pc. rewrite Hc in Pc. destruct Pc as [-> _]. discriminate.
Qed.
(** The server has answered. *)
Lemma server_view ce se C S k ts s : csound ce C -> ssound se S -> c_hState C = Some s -> waiting S k -> talk ce se ts ->
  exists hello tl random shares hm ms, ce = Sent hello :: tl /\ hello_msg hello random shares /\ se = Received hm :: map Sent ms /\ same_message hello hm /\ flight (sk_suite k) hm ms /\
    w_hash (c_world S) = marshals (hm :: ms) /\ p_usingClientAuth (sk_params k) = false /\ (c_hState S = Some (SWaitFlight2 k) \/ exists peer, c_hState S = Some (SWaitFinished k peer)).
Proof.
  intros Sc Sd Hc (s' & Hs & Ws) T. assert (not_connected s') as Nc by (destruct Ws as [->|[->|[[? ->]|[? ->]]]]; exact I).
  destruct (sound_path _ _ _ _ _ _ _ Sd Hs) as (w & _ & Pa). specialize (Pa Nc).
  destruct (client_began _ _ _ Sc Hc) as (hello & tl & random & shares & -> & Hm).
  destruct (server_history Qc Qs E ccfg scfg cpsks spsks cp msized shandler stls _ _ _ _ Pa eq_refl) as [_ [[-> ->]|(hm & tls & -> & H)]]; [destruct Ws as [|[|[[? ?]|[? ?]]]]; discriminate|].
  destruct (talk_parts _ _ _ T) as (a & b & Es & F & _). change (received (Received hm :: tls)) with (hm :: received tls) in F. inversion F as [|hello' ? l ? Sm F']; subst.
  change (sent (Sent hello :: tl)) with (hello :: sent tl) in Es. injection Es as <- _.
  specialize (H random shares (hello_same _ _ _ _ _ _ _ Sm Hm) Nc). exists hello, tl, random, shares, hm.
  destruct Ws as [->|[->|[[? ->]|[peer ->]]]]; try contradiction; destruct H as (ms & Fl & -> & Wh & Ca); exists ms; do 7 (split; [assumption || reflexivity|]); eauto.
Qed.
Lemma client_view ce se C S k ts s : csound ce C -> ssound se S -> c_hState C = Some s -> not_connected s -> waiting S k -> talk ce se [] -> talk se ce ts -> msgs ts <> [] ->
  exists hello a b c d e, flight (sk_suite k) hello [a; b; c; d; e] /\ [a; b; c; d; e] = received ce ++ map heard (msgs ts) /\ tracks (sk_suite k) hello a b c d s (c_world C) (List.length (received ce)).
Proof.
  intros Sc Sd Hc Nc Wt Tu Td Ne. destruct (server_view _ _ _ _ _ _ _ Sc Sd Hc Wt Tu) as (hello & tl & random & shares & hm & ms & Ec & Hm & Es & Sm & Fl & _).
  destruct (sound_path _ _ _ _ _ _ _ Sc Hc) as (w & _ & Pa). specialize (Pa Nc).
  destruct (client_history Qc Qs E ccfg scfg cpsks cp chandler ctls stls curves _ _ _ _ Pa eq_refl) as (hello' & tl' & random' & shares' & Ec' & _ & H). rewrite Ec in Ec'. injection Ec' as <- <-. destruct (H Nc) as [_ H2]. clear H.
  destruct Td as (D1 & D2 & D3). rewrite Es in D1, D2. change (sent (Received hm :: map Sent ms)) with (sent (map Sent ms)) in *. rewrite sent_acts in *.
  pose proof (flight_same _ _ _ _ _ _ _ _ _ _ (same_sym _ _ Sm) (same_heards _ D2) Fl) as Fl'. rewrite D1, map_app, (wholes_heard _ D3) in Fl'.
  pose proof Fl' as (q1 & q2 & q3 & q4 & q5 & q6 & q7 & q8 & q9 & q10 & a & b & c & d & e & Eq & _). rewrite Eq in Fl'. rewrite Ec in *. change (received (Sent hello :: tl)) with (received tl) in *.
  exists hello, a, b, c, d, e. split; [exact Fl'|]. split; [now symmetry|]. eapply H2; [exact Fl'| |symmetry; exact Eq]. intros Z. apply map_eq_nil in Z. contradiction.
Qed.

(** ** Starting *)

Lemma key_fit n s sec : cipherSuiteMap n = Some s -> key_fits (makeTrafficKeys P s sec).
Proof. intros H. split; [change (cipherSuiteMap (s_id s) <> None); rewrite (known_suite _ _ H); discriminate|]. apply key_size; [exact msized|exact (known_suite _ _ H)]. Qed.
Lemma calm_of (c : conn) (q : res unit) : match q with Ok _ => tx_ok (c_ctx c) | Panic => worn_out (c_out c) | _ => False end -> calmly c q.
Proof. destruct q; cbn; auto. Qed.
Lemma calm_off (c : conn) (q : res unit) A : match q with Ok _ => tx_ok (c_ctx c) /\ A | Panic => worn_out (c_out c) | _ => False end -> calmly c q.
Proof. destruct q; cbn; auto. Qed.
Lemma small_msgs l : Forall (fun m => len (hm_body m) <= 16363) l -> small (map Sent l).
Proof. intros F. unfold small. rewrite sent_acts. eapply Forall_impl; [|exact F]. cbn. intros m L. eapply N.le_lt_trans; [exact L|reflexivity]. Qed.
Lemma tls_framed m : framed m -> len (hm_body m) < 2 ^ 24 -> tls_msg m.
Proof. intros (A & B & C & D) L. unfold tls_msg. auto 6. Qed.

Lemma setup_client ce se C S up down o : Qc o -> csound ce C -> phase_hello ce se C S up down -> c_hState C = None ->
  (forall c' q, handshakeSetup E o C = (c', q) -> calmly c' q) /\ small (setup_events E o C).
Proof.
  intros Qo [Iv Pa] (tsu & tsd & Pu & Pd & _ & _ & _ & _ & Cl & _) Hs. unfold on_path in Pa. rewrite Hs in Pa. destruct Pa as (_ & Hc & Hp & Hk). pose proof (inv_role _ _ _ Iv) as R.
  destruct (pipe_tls _ _ _ _ Pu) as [_ Do]. destruct (pipe_tls _ _ _ _ Pd) as [Di _]. destruct (world_init_ctx (c_world C)) as [Wx We].
  unfold handshakeSetup, setup_events. set (c1 := set_world C (world_init (c_world C))). cbv zeta.
  assert (c_cfg c1 = cfg_init ccfg) as C1. { unfold c1, c_cfg, world_init. cbn. unfold c_cfg in Hc. now rewrite Hc. }
  assert (w_psks (c_world c1) = start_cache ccfg cpsks) as P1.
  { unfold c1, world_init, start_cache. cbn. unfold c_cfg in Hc. rewrite Hc. destruct (cf_psks ccfg); [exact Hp|reflexivity]. }
  assert (w_kind (c_world c1) = (false, false)) as K1.
  { rewrite ctls in Hk. rewrite <- Hk. unfold c1, world_init, w_kind. cbn. destruct (cf_psks _); reflexivity. }
  change (c_isClient c1) with (c_isClient C). rewrite R.
  destruct (start_forward Qc Qs E ccfg scfg cpsks cp chandler o (c_world c1) (mkCst (cf_serverName (c_cfg c1)) (cf_nextProtos (c_cfg c1)) no_params None None None) Qo C1 P1 K1) as (w & ws & random & shares & Cs & Hm & _); try reflexivity; try (rewrite C1; reflexivity).
  pose proof (st_client_start (c_world c1) P o (c_world c1) (mkCst (cf_serverName (c_cfg c1)) (cf_nextProtos (c_cfg c1)) no_params None None None)) as St. rewrite Cs in St. unfold wstill in St. cbn [fst] in St.
  assert (w_ctx (c_world c1) = c_ctx C) as Cx by exact Wx. rewrite Cx in St. specialize (St (still_refl _ Di Do)).
  pose proof (frame_client_start (c_world c1) P o (c_world c1) (mkCst (cf_serverName (c_cfg c1)) (cf_nextProtos (c_cfg c1)) no_params None None None) (frame_refl _)) as Fr. rewrite Cs in Fr. destruct Fr as (Fc & _). cbn [fst] in Fc.
  assert (plain (c_world c1)) as Pl by (unfold plain; now rewrite Cx).
  pose proof (start_framed _ _ _ _ _ _ _ _ Pl Cs) as Fm. cbn [sent_of flat_map List.app] in Fm. assert (framed (ws_hello ws)) as Fh by now inversion Fm.
  pose proof (hello_len _ _ _ _ _ _ Hm) as L.
  rewrite Cs. split.
  - intros c' e. cbn [sbind]. destruct (takeActions _ _ _ _) as [c2 r2] eqn:Ta. intros Hq.
    apply (hello_calm E (o_ms o)) in Ta; [destruct r2 as [u|e1| |]; cbn [sbind] in Hq; injection Hq as <- <-; first [exact Ta|exact I]|exact (tx_still _ _ (proj1 Pu) St)|now apply tls_framed|exact (clear_still _ _ St Cl)|]. change (cf_useDTLS (w_cfg w) = false). rewrite Fc. unfold c_cfg in C1. rewrite C1. exact ctls.
  - rewrite queued_sent. cbn [sent_of flat_map List.app map]. unfold small. cbn. constructor; [exact L|constructor].
Qed.
Lemma setup_server se S o : ssound se S -> c_hState S = None -> (forall c' q, handshakeSetup E o S = (c', q) -> calmly c' q) /\ small (setup_events E o S).
Proof.
  intros [Iv Pa] Hs. unfold on_path in Pa. rewrite Hs in Pa. destruct Pa as (_ & Hc & Hp & Hk). pose proof (inv_role _ _ _ Iv) as R.
  unfold handshakeSetup, setup_events. set (c1 := set_world S (world_init (c_world S))). cbv zeta. change (c_isClient c1) with (c_isClient S). rewrite R. split; [|constructor].
  assert (cf_requireCookie (c_cfg c1) = false) as ->. { unfold c1, c_cfg, world_init. cbn. unfold c_cfg in Hc. rewrite Hc. exact (cp_nocookie _ _ _ _ _ _ cp). }
  intros c' e. destruct (cf_cookieProtector _); intros [= <- <-]; exact I.
Qed.

(** ** The hellos *)

Lemma no_turn fuel o c s : forall tr r', reads s -> ahead (c_ctx c) tr [] r' [] -> turn_ok E fuel o c s tr.
Proof. intros tr r' Rd Ah. eapply turn_fine_reads; [exact Rd|exact Ah|right; auto|]. intros; discriminate. Qed.
Lemma hello_client ce se C S up down fuel o s : Qc o -> csound ce C -> ssound se S -> phase_hello ce se C S up down -> c_hState C = Some s -> turn_ok E fuel o C s (down ++ concat (l_out (c_out S))).
Proof.
  intros Qo Sc Sd (tsu & tsd & Pu & Pd & Tu & Td & Q1 & Q2 & Cl & G) Hs. pose proof Pd as (Tx & r' & Ah & Rr & Sy).
  destruct G as [([Hn|(st & Hc)] & Sn & -> & ->)|(ws & Hc & G)]; [congruence| |]; rewrite Hc in Hs; injection Hs as <-.
  - exfalso. pose proof (fresh _ _ _ _ _ Sc Sd Sn Tu) as ->. destruct (sound_path _ _ _ _ _ _ _ Sc Hc) as (w & _ & Pa). specialize (Pa I).
    destruct (client_history Qc Qs E ccfg scfg cpsks cp chandler ctls stls curves _ _ _ _ Pa eq_refl) as (hello & tl & random & shares & -> & _ & H). destruct (H I) as [H1 _].
    assert (received tl = []) as Rn. { destruct Td as (D & _). cbn in D. symmetry in D. apply app_eq_nil in D. destruct D as [D _]. now apply map_eq_nil in D. }
    destruct (H1 Rn) as [_ T]. destruct (T (mkSuite 0 SHA256 0 0) hello hello hello hello) as [_ T']. exact T'.
  - assert (tsd = []) as ->.
    { destruct G as [(_ & _ & ->)|[(n & _ & _ & _ & _ & ->)|(Hss & -> & hrr & -> & _)]]; try reflexivity. exfalso.
      pose proof (fresh _ _ _ _ _ Sc Sd (or_intror Hss) Tu) as ->. destruct Td as (D & _). cbn in D. symmetry in D. apply app_eq_nil in D. destruct D as [_ D]. discriminate. }
    eapply no_turn; [exact I|exact Ah].
Qed.
Lemma kind_read w x1 : has_read (w_ctx w) x1 -> w_kind (set_ctx w x1) = w_kind w.
Proof. intros H. destruct (read_tls _ _ H) as [A B]. unfold w_kind. cbn [w_ctx set_ctx]. now rewrite A, B. Qed.
Lemma hello_server ce se C S up down fuel o : Qs o -> csound ce C -> ssound se S -> phase_hello ce se C S up down -> c_hState S = Some SStart -> turn_ok E fuel o S SStart (up ++ concat (l_out (c_out C))).
Proof.
  intros Qo Sc Sd (tsu & tsd & Pu & Pd & Tu & Td & Q1 & Q2 & Cl & G) Hs. pose proof Pu as (Tx & r' & Ah & Rr & Sy).
  assert (waits tsu []) as Wt. { destruct G as [(_ & _ & -> & _)|(ws & _ & [(_ & -> & _)|[(n & _ & _ & _ & -> & _)|(_ & -> & _)]])]; [right|left|right|right]; eauto. }
  eapply turn_fine_reads; [exact I|exact Ah|exact Wt|]. intros m ts' x1 -> Hr A1. cbn [step_of].
  pose proof (fresh _ _ _ _ _ Sc Sd (or_intror Hs) Tu) as ->.
  destruct (c_hState C) as [cs|] eqn:Hc. 2:{ exfalso. destruct Sc as [_ Pc]. unfold on_path in Pc. rewrite Hc in Pc. destruct Pc as [-> _]. destruct Tu as (D & _). discriminate. }
  destruct (client_began _ _ _ Sc Hc) as (hello & tl & random & shares & -> & Hm).
  assert (pair_of hello = m) as <- by (destruct Tu as (D & _); cbn in D; congruence).
  assert (tls_msg hello) as Tm by (destruct Tu as (_ & D & _); cbn in D; now inversion D).
  destruct (sound_path _ _ _ _ _ _ _ Sd Hs) as (w & _ & Pa). specialize (Pa I).
  destruct (server_history Qc Qs E ccfg scfg cpsks spsks cp msized shandler stls _ _ _ _ Pa eq_refl) as [Lk _].
  destruct (server_start_forward Qc Qs E ccfg scfg cpsks cp o (set_ctx (c_world S) x1) (heard (pair_of hello)) random shares Qo Lk) as (w2 & n & -> & _).
  - rewrite kind_read by exact Hr. pose proof (path_kind _ _ _ _ _ _ _ _ Pa) as K. now rewrite stls in K.
  - exact (hello_same _ _ _ _ _ _ _ (same_heard _ Tm) Hm).
  - cbn [step_fine]. split; [reflexivity|]. split; [constructor|]. split; [intros c1 q [= <- <-]; exact I|]. intros; discriminate.
Qed.
Lemma flight_server ce se C S up down fuel o n : Qs o -> csound ce C -> ssound se S -> phase_hello ce se C S up down -> c_hState S = Some (SNegotiated n) -> turn_ok E fuel o S (SNegotiated n) (up ++ concat (l_out (c_out C))).
Proof.
  intros Qo Sc Sd (tsu & tsd & Pu & Pd & Tu & Td & Q1 & Q2 & Cl & G) Hs.
  destruct (pipe_tls _ _ _ _ Pu) as [Di _]. destruct (pipe_tls _ _ _ _ Pd) as [_ Do].
  pose proof (inv_tls _ _ _ (proj1 Sd) stls) as Dt.
  destruct G as [(_ & [A|A] & _)|(ws & Hc & [([A|A] & _)|[(n' & A & Ne & Nr & -> & ->)|(A & _)]])]; try congruence. rewrite A in Hs. injection Hs as ->.
  apply turn_fine; [|right; left; eauto]. cbn [next].
  destruct (client_began _ _ _ Sc Hc) as (hello & tl & random & shares & -> & Hm).
  destruct (sound_path _ _ _ _ _ _ _ Sd A) as (w0 & _ & Pa). specialize (Pa I).
  destruct (server_history Qc Qs E ccfg scfg cpsks spsks cp msized shandler stls _ _ _ _ Pa eq_refl) as [Lk [[_ Z]|(hm & tls & -> & H)]]; [discriminate|].
  assert (same_message hello hm) as Sm. { pose proof (talk_all _ _ Tu) as F. cbn in F. now inversion F. }
  destruct (H random shares (hello_same _ _ _ _ _ _ _ Sm Hm) I) as [-> Ch].
  destruct (negotiated_forward Qc Qs E ccfg scfg cpsks cp msized o (c_world S) n random shares hm Qo Lk Ch) as (w & k & acts & N & Fl & Ca & Wh). rewrite N.
  destruct (sound_server _ _ _ _ _ _ _ msized Sd A I) as (pr & At). cbn [server_at] in At.
  assert (keys_state (SWaitFlight2 k) k) as Ks.
  { pose proof N as N1. apply server_negotiated_ok in N1. destruct N1 as (rnd & hexts & eexts & shm & ps & w3 & w4 & eem & finm & auth & ca & _ & _ & Ts & _ & _ & N1). cbv zeta in N1.
    destruct (handshake_secrets _ _ _ _ _) as [[chs shs] ms]. destruct N1 as (_ & Te & _ & _ & _ & Ha & Tf & _ & _ & _ & Es & _ & _).
    match type of Es with SWaitFlight2 k = if _ then SWaitEOED ?kk else _ => assert (keys_state (SWaitFlight2 k) kk) as K by exact Es; assert (k = kk) as -> end; [|exact K].
    clear -Es. revert Es. destruct (p_usingEarlyData (if ca then _ else _)); [discriminate|]. destruct (p_rejectedEarlyData (if ca then _ else _)); [discriminate|]. intros Es. now injection Es. }
  destruct (flight_half Qs E scfg spsks pr msized _ _ _ _ _ _ _ _ At N Ks) as (shs & before & hello' & shm & eem & fl & sfin & pre & es & dh & Hf & _ & Ue & Rj & Ea).
  specialize (Ea Ne).
  assert (still (c_ctx S) (w_ctx w)) as St.
  { pose proof (st_server_negotiated (c_world S) P X o (c_world S) n) as K. rewrite N in K. apply K. apply still_refl; assumption. }
  pose proof (frame_server_negotiated (c_world S) P X o (c_world S) n (frame_refl _)) as Fr. rewrite N in Fr. destruct Fr as (Fc & _ & Fe). cbn [fst] in Fc, Fe.
  pose proof (server_negotiated_framed _ _ _ _ _ _ _ _ _ (Do : plain (c_world S)) N) as Fm.
  assert (Forall (fun m => len (hm_body m) <= 16363) (sent_of acts)) as Fl3 by (destruct Fl as (? & ? & ? & ? & ? & ? & ? & ? & ? & ? & ? & ? & ? & ? & ? & _ & _ & _ & _ & _ & Z); exact Z).
  assert (sent_of acts = shm :: eem :: fl ++ [sfin]) as Sa.
  { rewrite Ea, !sent_app, sent_queue. cbn [sent_of List.app]. now rewrite app_nil_r. }
  pose proof (hf_suite _ _ _ _ _ _ _ _ _ _ _ _ _ _ _ _ Hf) as Cs.
  pose proof (small_msgs _ Fl3) as Sml. rewrite Sa in *.
  assert (Forall tls_msg (shm :: eem :: fl ++ [sfin])) as Tm by (eapply framed_small; [exact Fm| |exact Sml]; apply sent_acts).
  assert (Forall action_ok acts) as Ao.
  { rewrite Ea. inversion Tm as [|? ? Tm1 Tm2]; subst. constructor; [exact Tm1|]. constructor; [eapply long_iv; eauto|]. cbn [List.app]. apply Forall_app. split.
    - apply Forall_map. eapply Forall_impl; [|exact Tm2]. auto.
    - constructor; [exact I|]. constructor; [eapply long_iv; eauto|]. constructor; [exact I|constructor]. }
  assert (Forall act_calm acts) as Ac.
  { rewrite Ea. inversion Fl3 as [|? ? L1 L2]; subst. constructor; [exact L1|]. constructor; [exact (key_fit _ _ _ Cs)|]. cbn [List.app]. apply Forall_app. split.
    - apply Forall_map. eapply Forall_impl; [|exact L2]. auto.
    - constructor; [exact I|]. constructor; [exact (key_fit _ _ _ Cs)|]. constructor; [exact (key_fit _ _ _ Cs)|constructor]. }
  pose proof (tx_still _ _ (proj1 Pd) St) as Tx1.
  destruct (pipe_reader _ _ _ _ _ Pu St) as (_ & r2 & Ah2 & _). apply ahead_quiet in Ah2. destruct Ah2 as [Rm _]. apply pending_rem in Rm.
  cbn [step_fine]. split; [reflexivity|]. split; [rewrite Sa; exact Sml|]. split; [|intros; discriminate].
  intros c1 q Ta. apply (acts_calm E gcm) in Ta; auto; [exact (calm_off _ _ _ Ta)| |].
  - change (cf_useDTLS (w_cfg w) = false). rewrite Fc. exact Dt.
  - intros _. change (cf_psks (w_cfg w) <> None). rewrite Fc. apply (inv_psks _ _ _ (proj1 Sd)). unfold started. now rewrite A.
Qed.

(** ** The server's flight *)

Lemma key_next x tr e k iv ts r' d' : ahead x tr (K e k iv :: ts) r' d' -> f_rem (hl_frame (x_in x)) = [].
Proof. intros (_ & H). apply heads_key in H. destruct H as [H _]. now apply pending_rem. Qed.
Lemma kept_read w x1 : has_read (w_ctx w) x1 -> kept w (set_ctx w x1).
Proof. intros H. split; [reflexivity|]. split; [reflexivity|]. split; [reflexivity|now apply kind_read]. Qed.
Lemma mid_fine C s o x1 hello a b c d e k n : Qc o -> flight (sk_suite k) hello [a; b; c; d; e] -> tracks (sk_suite k) hello a b c d s (c_world C) n -> (n < 4)%nat -> cf_useDTLS (c_cfg C) = false ->
  has_read (c_ctx C) x1 -> hl_datagram (x_in (c_ctx C)) = false -> tx_ok (c_ctx C) -> cipherSuiteMap (p_suite (sk_params k)) = Some (sk_suite k) ->
  (n = 0%nat -> exists tr e1 k1 iv1 ts r' d', ahead x1 tr (K e1 k1 iv1 :: ts) r' d') ->
  step_fine E o C (step_of P X o (set_ctx (c_world C) x1) s (nth n [a; b; c; d; e] hello)).
Proof.
  intros Qo Fl Tk L Dt Hr Di Tx Cs Nk.
  destruct (step_goes Qc Qs E ccfg scfg cpsks cp chandler ctls stls curves _ _ _ _ _ _ _ o (set_ctx (c_world C) x1) s n Fl Qo (tracks_kept Qc E ccfg _ _ _ _ _ _ _ _ _ _ (kept_read _ _ Hr) Tk) L) as [G Rd].
  destruct (step_of P X o (set_ctx (c_world C) x1) s (nth n [a; b; c; d; e] hello)) as [w [[[s' acts] retry]|er| |]] eqn:St; try contradiction. destruct G as (-> & Tk' & ->).
  assert (hl_datagram (x_out (c_ctx C)) = false) as Do by apply Tx.
  pose proof (step_still E _ _ _ _ _ _ _ Hr Di Do St) as Sl. pose proof (tx_still _ _ (tx_read _ _ Tx Hr) Sl) as Tx1.
  assert (forall k, s' <> Connected k) as Nc by (intros k0 ->; destruct Tk' as [_ Tk']; contradiction).
  assert (w_cfg w = cfg_init ccfg) as Wc by apply Tk'.
  cbn [step_fine]. split; [reflexivity|]. assert (sent_of (sh_acts E (sk_suite k) s') = []) as -> by (destruct s'; reflexivity). split; [constructor|]. split; [|intros c1 k0 _ Z; destruct (Nc _ Z)].
  intros c1 er Ta. destruct s'; try (injection Ta as <- <-; exact I). destruct Tk' as (_ & N1 & _). injection N1 as ->. destruct (Nk eq_refl) as (tr & e1 & k1 & iv1 & ts & r' & d' & Ah). destruct (ahead_still _ _ _ _ _ _ Ah Sl) as (v & A2). apply key_next in A2.
  unfold sh_acts in Ta. apply (acts_calm E gcm) in Ta; [exact (calm_off _ _ _ Ta)|exact Tx1| | | |intros _; exact A2|discriminate].
  - constructor; [exact I|]. constructor; [eapply long_iv; eauto|constructor].
  - constructor; [exact (key_fit _ _ _ Cs)|]. constructor; [exact (key_fit _ _ _ Cs)|constructor].
  - change (cf_useDTLS (w_cfg w) = false). rewrite Wc. exact ctls.
Qed.
Lemma flight_client ce se C S up down fuel o s : Qc o -> csound ce C -> ssound se S -> phase_flight Qs E scfg spsks ce se C S up down -> c_hState C = Some s -> turn_ok E fuel o C s (down ++ concat (l_out (c_out S))).
Proof.
  intros Qo Sc Sd (ws & k & shs & before & hello & shm & eem & fl & sfin & pre & es & dh & H) Hs. cbv zeta in H. destruct H as (Hc & Wt & Hf & Ue & Ho & Pd & Tu & Td & Q1 & Q2).
  rewrite Hc in Hs. injection Hs as <-. pose proof Pd as (Tx & r' & Ah & Rr & Sy). destruct (pipe_tls _ _ _ _ Pd) as [Di _].
  eapply turn_fine_reads; [exact I|exact Ah|left; eauto|]. intros m ts' x1 Em Hr A1. injection Em as <- <-.
  destruct (client_view _ _ _ _ _ _ _ Sc Sd Hc I Wt Tu Td) as (hello' & a & b & c & d & e & Fl & Eq & Tk); [discriminate|].
  assert (List.length (received ce) = 0%nat) as Ln by apply Tk. assert (received ce = []) as Rn by (destruct (received ce); [reflexivity|discriminate]).
  rewrite Ln in Tk. rewrite Rn in Eq. cbn [List.app msgs flat_map map] in Eq. injection Eq as Ea _.
  replace (heard (pair_of shm)) with (nth 0 [a; b; c; d; e] hello') by exact Ea.
  eapply mid_fine; [exact Qo|exact Fl|exact Tk|lia|exact (inv_tls _ _ _ (proj1 Sc) ctls)|exact Hr|exact Di|exact (proj1 Ho)|exact (hf_suite _ _ _ _ _ _ _ _ _ _ _ _ _ _ _ _ Hf)|]. intros _. eauto 10.
Qed.
Lemma wait_client ce se C S up down fuel o s : Qc o -> csound ce C -> ssound se S -> phase_keys Qs E scfg spsks ce se C S up down -> c_hState C = Some s -> turn_ok E fuel o C s (down ++ concat (l_out (c_out S))).
Proof.
  intros Qo Sc Sd (cs & ck & k & shs & before & hello & shm & eem & fl & sfin & pre & es & dh & cevs0 & got & seen & rest & H) Hs. cbv zeta in H.
  destruct H as (Hc & Kc & Wt & Hf & Ue & Sk & Tr & Ec & Fs & El & Ie & Pu & Pd & Tu & Td & Q1 & Q2). rewrite Hc in Hs. injection Hs as <-.
  destruct (pipe_tls _ _ _ _ Pd) as [Di _]. destruct (pipe_tls _ _ _ _ Pu) as [_ Do]. pose proof Pd as (Tx & r' & Ah & Rr & Sy).
  pose proof (hf_suite _ _ _ _ _ _ _ _ _ _ _ _ _ _ _ _ Hf) as Cs. pose proof (inv_tls _ _ _ (proj1 Sc) ctls) as Dt.
  assert (not_connected cs) as Nc by (destruct cs; try exact I; discriminate).
  eapply turn_fine_reads; [exact (keys_reads _ _ Kc)|exact Ah|apply flight_waits|]. intros m ts' x1 Em Hr A1.
  destruct (client_view _ _ _ _ _ _ _ Sc Sd Hc Nc Wt Tu Td) as (hello' & a & b & c & d & e & Fl & Eq & Tk); [rewrite Em; discriminate|].
  assert (List.length (received ce) + List.length (rest ++ [sfin]) = 5)%nat as L5. { rewrite flight_msgs in Eq. apply (f_equal (@List.length _)) in Eq. rewrite app_length, !map_length in Eq. now symmetry. }
  assert (nth (List.length (received ce)) [a; b; c; d; e] hello' = heard m) as Nm. { rewrite Eq, Em, app_nth2, Nat.sub_diag by lia. reflexivity. }
  assert (1 <= List.length (received ce))%nat as L1. { destruct cs; try discriminate; destruct Tk as [_ Z]; try contradiction; destruct Z as [Z _]; rewrite Z; lia. }
  destruct (Nat.lt_ge_cases (List.length (received ce)) 4) as [L4|L4].
  - rewrite <- Nm. eapply mid_fine; [exact Qo|exact Fl|exact Tk|exact L4|exact Dt|exact Hr|exact Di|exact (proj1 Pu)|exact Cs|]. intros Z. rewrite Z in L1. lia.
  - rewrite app_length in L5. cbn [List.length] in L5. assert (List.length (received ce) = 4)%nat as L4' by lia. assert (rest = []) as -> by (destruct rest; [reflexivity|cbn in L5; lia]). rewrite L4' in *. clear L5 L4 L1.
    cbn [List.app] in Em. rewrite flight_cons in Em. injection Em as <- <-. rewrite app_nil_r in El.
    destruct cs; try discriminate; try (destruct Tk as [_ Z]; first [contradiction|destruct Z as [Z _]; discriminate Z]). injection Kc as ->. cbn [step_of].
    pose proof (tracks_kept Qc E ccfg _ _ _ _ _ _ _ _ _ _ (kept_read _ _ Hr) Tk) as Tk1.
    pose proof (hf_types _ _ _ _ _ _ _ _ _ _ _ _ _ _ _ _ Hf) as (_ & _ & Te & Tf & T20).
    (* the hash *)
    pose proof (sound_client _ _ _ _ _ _ _ msized Sc Hc I) as At. cbn [client_at] in At.
    apply since_finished in At; [|exact msized]. destruct At as (ev0 & em & flt & _ & _ & (ev1 & _ & _ & Hh & _) & _). unfold hashed in Hh.
    assert (is_retry (heard (pair_of sfin)) = false) as Nr by (eapply not_retry; [exact T20|reflexivity]).
    assert (tls_msg sfin) as Tsf.
    { assert (In sfin (sent se)) as Im by (rewrite (hf_evs _ _ _ _ _ _ _ _ _ _ _ _ _ _ _ _ Hf), !sends_app, sent_acts; apply in_or_app; right; apply in_or_app; right; right; apply in_or_app; right; now left).
      destruct Td as (_ & Td & _). rewrite Forall_forall in Td. exact (Td _ Im). }
    assert (Forall2 same_message (eem :: fl ++ [sfin]) (seen ++ [heard (pair_of sfin)])) as Fs'.
    { rewrite app_comm_cons, El. apply Forall2_app; [exact Fs|]. constructor; [|constructor]. now apply same_heard. }
    pose proof (Tr _ Fs') as Tr1. rewrite map_app, app_assoc, <- Ec in Tr1. change (map Received [heard (pair_of sfin)]) with [Received (heard (pair_of sfin))] in Tr1. rewrite transcript_received in Tr1 by exact Nr. rewrite <- Hh in Tr1.
    destruct Sk as (K1 & K2 & K3 & K4 & _).
    assert (w_hash (c_world C) = pre ++ encoding ([Received hello; Sent shm] ++ map Sent (eem :: fl))) as Wh.
    { rewrite app_comm_cons, map_app, app_assoc, AgreeProofs.encoding_app, app_assoc in Tr1. rewrite <- (proj1 (same_heard _ Tsf)) in Tr1. change (map Sent [sfin]) with [Sent sfin] in Tr1.
      unfold encoding in Tr1 at 2. cbn [map concat] in Tr1. rewrite app_nil_r in Tr1. now apply app_inv_tail in Tr1. }
    destruct (finish_goes Qc E ccfg msized (sk_suite k) hello' a b c d o (set_ctx (c_world C) x1) ck certs cr peer chains (heard (pair_of sfin)) Tk1 T20) as (w & cn & cfin & acts & Cw & Sy1 & Lc & Ea & _).
    { change (hm_body (heard (pair_of sfin))) with (hm_body sfin). rewrite (hf_fin _ _ _ _ _ _ _ _ _ _ _ _ _ _ _ _ Hf), K3. change (w_hash (set_ctx (c_world C) x1)) with (w_hash (c_world C)). now rewrite Wh. }
    assert (plain (set_ctx (c_world C) x1)) as Pl by (unfold plain; cbn [w_ctx set_ctx]; rewrite (proj2 (read_tls _ _ Hr)); exact Do).
    pose proof (client_finished_framed _ _ _ _ _ _ _ _ _ _ _ _ _ _ Pl Cw) as Fm.
    pose proof (step_still E o (c_world C) x1 (CWaitFinished ck certs cr peer chains) (heard (pair_of sfin)) w _ Hr Di Do Cw) as Sl.
    pose proof (tx_still _ _ (tx_read _ _ (proj1 Pu) Hr) Sl) as Tx1. destruct (ahead_still _ _ _ _ _ _ A1 Sl) as (v & A2). apply key_next in A2.
    pose proof (frame_client_wait_finished (set_ctx (c_world C) x1) P X o (set_ctx (c_world C) x1) ck certs cr peer chains (heard (pair_of sfin)) (frame_refl _)) as Fr. rewrite Cw in Fr. destruct Fr as (Fc & _ & Fe). cbn [fst] in Fc, Fe.
    assert (sent_of acts = [cfin]) as Sa by (rewrite Ea; reflexivity). rewrite Sa in Fm. assert (framed cfin) as Fh by now inversion Fm.
    assert (len (hm_body cfin) < 2 ^ 24) as Lc' by (eapply N.le_lt_trans; [exact Lc|reflexivity]).
    rewrite Cw. cbn [step_fine]. split; [reflexivity|]. split; [rewrite Sa; apply small_msgs; constructor; [exact Lc|constructor]|]. split.
    + intros c1 er Ta. apply (acts_calm E gcm) in Ta; [exact (calm_off _ _ _ Ta)|exact Tx1| | | |intros _; exact A2|intros Z; rewrite Ea in Z; discriminate Z].
      * rewrite Ea. constructor; [exact (tls_framed _ Fh Lc')|]. constructor; [exact I|]. constructor; [exact I|]. constructor; [eapply long_iv; eauto|constructor].
      * rewrite Ea. constructor; [exact Lc|]. constructor; [exact I|]. constructor; [exact (key_fit _ _ _ Cs)|]. constructor; [exact (key_fit _ _ _ Cs)|constructor].
      * change (cf_useDTLS (w_cfg w) = false). rewrite Fc. exact Dt.
    + intros c1 kc Ta [= <-] c2 er Oc. apply acts_shape in Ta. destruct Ta as (x & p & ->). unfold on_connected in Oc. cbv zeta in Oc. pose proof (inv_role _ _ _ (proj1 Sc)) as Ro.
      match type of Oc with (if ?b then _ else _) = _ => change b with (c_isClient C) in Oc end. rewrite Ro in Oc. cbn [c_world set_complete set_hState set_world w_early] in Oc. rewrite Fe in Oc. cbn [w_early set_ctx] in Oc. rewrite (proj1 (proj2 Q1)) in Oc. injection Oc as <- <-. exact I.
Qed.

(** ** The server waits *)

Lemma flight2_turn fuel o S k tr : p_usingClientAuth (sk_params k) = false -> turn_ok E fuel o S (SWaitFlight2 k) tr.
Proof.
  intros Ca. apply turn_fine; [|right; right; eauto]. cbn [next]. unfold server_wait_flight2, done. rewrite Ca. cbn [step_fine]. split; [reflexivity|]. split; [constructor|]. split; [intros c1 q [= <- <-]; exact I|]. intros; discriminate.
Qed.
Lemma wait_server ce se C S k up fuel o s cs : csound ce C -> ssound se S -> c_hState C = Some cs -> waiting S k -> talk ce se [] ->
  (exists r', ahead (c_ctx S) up [] r' []) -> c_hState S = Some s -> turn_ok E fuel o S s up.
Proof.
  intros Sc Sd Hc Wt Tu (r' & Ah) Hs. destruct (server_view _ _ _ _ _ _ _ Sc Sd Hc Wt Tu) as (hello & tl & random & shares & hm & ms & _ & _ & _ & _ & _ & _ & Ca & [H|(peer & H)]); rewrite Hs in H; injection H as ->.
  - now apply flight2_turn.
  - eapply no_turn; [exact I|exact Ah].
Qed.

(** ** The client has finished *)

Lemma connected_last client evs s w : path Qc E ccfg cpsks client evs s w -> client = true -> forall c, s = Connected c ->
  exists evs0 s0 w0 o fuel w1 acts retry, path Qc E ccfg cpsks true evs0 s0 w0 /\ not_connected s0 /\ Qc o /\ next P X o fuel w0 s0 = (w1, Ok (Connected c, acts, retry)) /\
    evs = evs0 ++ read_by fuel o w0 s0 ++ map Sent (sent_of acts).
Proof.
  intros H. induction H as [o w w' s acts retry Qo Hc Hp Hk Cs|w Hw Hp Hk|client o fuel evs s w w' s' acts retry H IH Qo Nc N|client evs s w w' H IH K]; intros Cl c Ec.
  - exfalso. subst s. apply client_start_ok in Cs. destruct Cs as (ws & ch & sending & k & Z & _). discriminate.
  - discriminate.
  - subst client s'. exists evs, s, w, o, fuel, w', acts, retry. auto.
  - exact (IH Cl c Ec).
Qed.
(** What the server's half of the handshake has been. *)
Lemma server_half se S k hm ms : ssound se S -> waiting S k -> se = Received hm :: map Sent ms ->
  exists shs shm eem fl sfin pre es dh, half Qs P scfg spsks se k shs [] hm shm eem fl sfin pre es dh.
Proof.
  intros Sd (s & Hs & Ws) Es. assert (not_connected s) as Nc by (destruct Ws as [->|[->|[[? ->]|[? ->]]]]; exact I).
  destruct (sound_server _ _ _ _ _ _ _ msized Sd Hs Nc) as (pr & At).
  assert (exists more, replied Qs E scfg spsks pr se (c_world S) k more /\ more = map Received (received more)) as (more & Rp & Em).
  { assert (forall more, eoed k more -> more = map Received (received more)) as Eo by (unfold eoed; intros more; destruct (p_usingEarlyData _); [intros (m & -> & _)|intros ->]; reflexivity).
    destruct Ws as [->|[->|[[cert ->]|[peer ->]]]]; cbn [server_at] in At.
    - destruct At as (more & A & B). exists more. auto.
    - destruct At as (more & A & B & _). exists more. auto.
    - destruct At as (more & certm & A & B & _). exists (more ++ [Received certm]). split; [exact A|]. rewrite receives_app, map_app, <- (Eo _ B). reflexivity.
    - destruct At as (more & auth & A & B & C). exists (more ++ auth). split; [exact A|]. rewrite receives_app, map_app, <- (Eo _ B). f_equal.
      destruct C as [(_ & -> & _)|[(certm & cert & _ & -> & _)|(certm & cert & cvm & cv & leaf & rest & before & o & _ & -> & _)]]; reflexivity. }
  destruct Rp as (evs0 & o & w0 & w1 & n & s1 & acts & Qo & An & Sn & Ks & Ee & _).
  destruct (flight_half Qs E scfg spsks pr msized _ _ _ _ _ _ _ _ An Sn Ks) as (shs & before & hello & shm & eem & fl & sfin & pre & es & dh & Hf & Eb & _).
  assert (received se = [hm]) as Rs. { rewrite Es. change (received (Received hm :: map Sent ms)) with (hm :: received (map Sent ms)). now rewrite received_sent. }
  pose proof Rs as Rs1. rewrite Ee, Eb, !receives_app, received_sent, app_nil_r in Rs1. change (received [Received hello]) with [hello] in Rs1.
  destruct (received before) as [|q1 q2] eqn:Rb; [|cbn in Rs1; injection Rs1 as _ Z; destruct q2; discriminate]. cbn [List.app] in Rs1. injection Rs1 as -> Rm.
  rewrite Rm in Em. cbn [map] in Em. subst more. rewrite app_nil_r in Ee. rewrite <- Ee in Hf.
  assert (before = []) as ->. { destruct before as [|e before]; [reflexivity|]. rewrite Es, Eb in Ee. cbn in Ee. injection Ee as <- _. discriminate. }
  exists shs, shm, eem, fl, sfin, pre, es, dh. exact Hf.
Qed.
Lemma app_one {A} (a b : list A) x : a ++ b = [x] -> b <> [] -> a = [] /\ b = [x].
Proof. destruct a as [|y a]; [auto|]. cbn. intros [= -> H]. apply app_eq_nil in H. tauto. Qed.
Lemma finished_view ce se C S k c ts : csound ce C -> ssound se S -> c_hState C = Some (Connected c) -> waiting S k -> talk ce se ts -> talk se ce [] ->
  exists hello cfin, sent ce = [hello; cfin] /\ List.length (received se) = 1%nat /\ hm_type cfin = htFinished /\ hm_body cfin = computeFinishedData P (sk_suite k) (sk_chs k) (digest P (s_hash (sk_suite k)) (w_hash (c_world S))).
Proof.
  intros Sc Sd Hc Wt Tu Td. destruct (server_view _ _ _ _ _ _ _ Sc Sd Hc Wt Tu) as (hello & tl & random & shares & hm & ms & Ec & Hm & Es & Sm & Fl & Wh & Ca & _).
  destruct (server_half _ _ _ _ _ Sd Wt Es) as (shs & shm & eem & fl & sfin & pre & es & dh & Hf).
  destruct (sound_path _ _ _ _ _ _ _ Sc Hc) as (w & Pa & _).
  destruct (connected_last _ _ _ _ Pa eq_refl c eq_refl) as (evs0 & s0 & w0 & o & fuel & w1 & acts & retry & Pa0 & Nc & Qo & N & Ee).
  assert (client_at Qc E ccfg cpsks evs0 w0 s0) as At by (eapply client_path; eauto; exact msized).
  assert (reads s0) as Rd.
  { destruct s0; try exact I; try contradiction. exfalso. cbn [next] in N. apply client_start_ok in N. destruct N as (ws & ch & sending & kk & Z & _). discriminate. }
  destruct (next_reads E _ _ _ _ _ _ _ _ Rd N) as (w2 & m & Hr & Rb & St). rewrite Rb in Ee.
  destruct (client_history Qc Qs E ccfg scfg cpsks cp chandler ctls stls curves _ _ _ _ Pa0 eq_refl) as (hello' & tl' & random' & shares' & E0 & _ & H). destruct (H Nc) as [_ H2]. clear H.
  rewrite Ee, E0 in Ec. cbn in Ec. injection Ec as -> Etl.
  assert (received ce = received tl' ++ [m]) as Rc. { rewrite Ee, E0, !receives_app, received_sent, app_nil_r. reflexivity. }
  pose proof Td as (D1 & D2 & D3). rewrite Es in D1, D2. change (sent (Received hm :: map Sent ms)) with (sent (map Sent ms)) in *. rewrite sent_acts in *. change (msgs []) with (@nil (byte * bytes)) in D1. rewrite app_nil_r in D1.
  assert (Forall2 same_message ms (received ce)) as Fm by (rewrite <- (wholes_heard _ D3), <- D1; now apply same_heards).
  pose proof (flight_same _ _ _ _ _ _ _ _ _ _ (same_sym _ _ Sm) Fm Fl) as Fl'. rewrite Rc in Fl'.
  pose proof Fl' as (q1 & q2 & q3 & q4 & q5 & q6 & q7 & q8 & q9 & q10 & a & b & cc & d & e & Eq & _). rewrite Eq in Fl'.
  destruct (H2 (sk_suite k) a b cc d e [m] Fl' ltac:(discriminate) (eq_sym Eq)) as [Et Tk].
  assert (List.length (received tl') = 4)%nat as L4. { apply (f_equal (@List.length _)) in Eq. rewrite app_length in Eq. cbn in Eq. lia. }
  rewrite L4 in Tk. destruct s0; try contradiction; try (destruct Tk as [_ Z]; first [contradiction|destruct Z as [Z _]; discriminate Z]).
  pose proof (tracks_kept Qc E ccfg _ _ _ _ _ _ _ _ _ _ (kept_hr _ _ _ _ _ Hr) Tk) as (_ & _ & (Ks & _ & Kca & _ & Kh) & Ke). cbn [step_of] in St.
  apply client_wait_finished_ok in St. destruct St as (w3 & w4 & eo & auth & finm & Ht & St). cbv zeta in St. destruct St as (_ & Heo & Hau & Tf & Bf & _ & _ & _ & Ea & _).
  apply client_eoed_ok in Heo. rewrite Ke in Heo. destruct Heo as [Heo1 ->].
  apply client_auth_ok in Hau. rewrite Kca in Hau. destruct Hau as (Hau & _ & ->). cbn [List.app] in Ea.
  cbn [sent_of flat_map marshals map concat List.app] in Heo1, Hau. rewrite ?app_nil_r in Heo1, Hau.
  exists hello, finm. split; [|split; [|split]].
  - rewrite Ee, E0, Et, Ea. rewrite !sends_app. change (Sent hello :: map Received (received tl')) with ([Sent hello] ++ map Received (received tl')). rewrite sends_app, sent_received, sent_acts. reflexivity.
  - rewrite Es. change (received (Received hm :: map Sent ms)) with (hm :: received (map Sent ms)). now rewrite received_sent.
  - exact Tf.
  - assert (w_hash (c_world S) = w_hash w4) as Wt1.
    { rewrite Wh, Hau, Heo1. change (w_hash (hash_write w2 (hm_marshal m))) with (w_hash w2 ++ hm_marshal m). rewrite Kh. transitivity (marshals (hello :: received ce)).
      - symmetry. apply sames_marshal. constructor; [exact Sm|]. clear -Fm. induction Fm; constructor; [apply same_sym; assumption|assumption].
      - rewrite Rc. assert (received tl' = [a; b; cc; d] /\ [m] = [e]) as [Er Em]. { change [a; b; cc; d; e] with ([a; b; cc; d] ++ [e]) in Eq. apply app_tail in Eq; [destruct Eq; auto|reflexivity]. }
        rewrite Er. unfold marshals. cbn [List.app map concat]. rewrite <- !app_assoc, ?app_nil_r. reflexivity. }
    rewrite Bf, Ks, Wt1. f_equal.
    cbn [client_at] in At. apply since_finished in At; [|exact msized]. destruct At as (ev0 & em & flt & _ & _ & _ & Ev & Ac & _).
    assert (exists shm', ev0 = [Sent hello; Received shm'] /\ a = shm') as (shm' & Ev0 & Eas).
    { pose proof Ac as (hellos & ck' & shs1 & h1 & shm' & _ & _ & _ & _ & _ & Eh & _). rewrite E0 in Ev. rewrite Eh in Ev. destruct hellos as [|ev hellos].
      - cbn in Ev. injection Ev as <- Z. exists shm'. split; [exact Eh|]. rewrite Z in Eq. cbn in Eq. now injection Eq.
      - exfalso. cbn in Ev. injection Ev as _ Z. rewrite Et in Z. apply (f_equal sent) in Z. rewrite sent_received, !sends_app in Z. symmetry in Z. apply app_eq_nil in Z. destruct Z as [Z _]. apply app_eq_nil in Z. destruct Z as [_ Z]. discriminate. }
    assert (ms = shm :: eem :: fl ++ [sfin]) as Ems.
    { pose proof (hf_evs _ _ _ _ _ _ _ _ _ _ _ _ _ _ _ _ Hf) as He. rewrite Es in He. cbn [List.app] in He. injection He as He. apply (f_equal sent) in He. rewrite sent_acts in He.
      exact (eq_trans He (sent_acts (shm :: eem :: fl ++ [sfin]))). }
    destruct (handshake_keys Qc Qs E ccfg scfg cpsks spsks chandler shandler (eq_trans ctls (eq_sym stls)) (jo_groups _ _ _ _ _ _ _ ok) (jo_curves _ _ _ _ _ _ _ ok) (jo_psk _ _ _ _ _ _ _ ok) (jo_inverts _ _ _ _ _ _ _ ok) (fun _ => stls)
      _ _ _ _ _ _ _ _ _ _ _ _ ev0 k0 [shm] Hf Ac) as (_ & Kc & _); [| | |exact Kc].
    + rewrite Ev0, Es. change (Forall2 same_message [hello] (hm :: received (map Sent ms))). rewrite received_sent. constructor; [exact Sm|constructor].
    + rewrite Es. change (sent (map Sent ms) = [shm] ++ eem :: fl ++ [sfin]). rewrite sent_acts. exact Ems.
    + rewrite Ev0. change (Forall2 same_message [shm] [shm']). rewrite Rc, Eq, Ems, Eas in Fm. inversion Fm; subst. constructor; [assumption|constructor].
Qed.

Lemma cons_eq {A} (x y : A) l l' : x :: l = y :: l' -> x = y /\ l = l'.
Proof. intros H. injection H. auto. Qed.
Lemma server_finish w k peer m : hl_datagram (x_in (w_ctx w)) = false -> hm_type m = htFinished -> hm_body m = computeFinishedData P (sk_suite k) (sk_chs k) (digest P (s_hash (sk_suite k)) (w_hash w)) ->
  exists w' c, server_wait_finished P w k peer m = (w', Ok (Connected c, [RekeyIn EpochApplicationData (makeTrafficKeys P (sk_suite k) (sk_cts k))], false)).
Proof.
  intros Dt T B. unfold server_wait_finished. rewrite T. change (Byte.eqb htFinished htFinished) with true. cbn [negb]. cbv zeta. unfold hash_sum. rewrite B. set (fd := computeFinishedData P (sk_suite k) (sk_chs k) _) in *.
  assert (hsize (s_hash (sk_suite k)) = List.length fd) as ->. { unfold fd, computeFinishedData. symmetry. apply msized. }
  rewrite (safe_ok _ _ _ (proj2 (proj2 (fin_back (List.length fd) fd fd ltac:(unfold fin_marshal; now rewrite Nat.eqb_refl))))). cbn [or_alert sbind]. fold fd. rewrite (proj2 (beqb_eq fd fd) eq_refl). cbn [negb].
  unfold receivedFinalFlight. change (w_ctx (hash_write w (hm_marshal m))) with (w_ctx w). rewrite Dt. cbn [negb sbind]. unfold done. eauto.
Qed.

Lemma done_server ce se t C S up down fuel o s : Qs o -> csound ce C -> ssound se S -> phase_done E ce se t C S up down -> c_hState S = Some s -> turn_ok E fuel o S s (up ++ concat (l_out (c_out C))).
Proof.
  intros Qo Sc Sd (k & l & cfin & r1 & d & items & H) Hs. cbv zeta in H.
  destruct H as (Ks & Eo & Rb & Wt & Q2 & Ty & T20 & Ah & Rr & Wc & Fl & Tx & Dr & Tu & Td & _).
  assert (exists c, c_hState C = Some (Connected c)) as (c & Hc). { pose proof (eo_connected _ _ _ Eo) as Z. unfold is_connected in Z. destruct (c_hState C) as [[]|]; try discriminate; eauto. }
  destruct (server_view _ _ _ _ _ _ _ Sc Sd Hc Wt Tu) as (_ & _ & _ & _ & _ & _ & _ & _ & _ & _ & _ & _ & Ca & [Hs'|(peer & Hs')]); rewrite Hs in Hs'; injection Hs' as ->; [now apply flight2_turn|].
  destruct (finished_view _ _ _ _ _ _ _ Sc Sd Hc Wt Tu Td) as (hello & fin & Sent2 & L1 & Tf & Bf).
  assert (l = [] /\ pair_of cfin = pair_of fin) as [-> Ef].
  { destruct Tu as (T1 & _). rewrite Sent2, answer_msgs in T1. cbn [map] in T1. destruct (received se) as [|x [|y q]]; try discriminate. cbn [map List.app] in T1.
    apply cons_eq in T1. destruct T1 as [_ T1]. destruct l as [|y l]; cbn [map List.app] in T1; apply cons_eq in T1; destruct T1 as [T0 T1]; [auto|]. destruct l; discriminate. }
  assert (hl_datagram (x_in (c_ctx S)) = false) as Di by apply Ah. assert (hl_datagram (x_out (c_ctx S)) = false) as Do by apply Tx. pose proof (inv_tls _ _ _ (proj1 Sd) stls) as Dt.
  eapply turn_fine_reads; [exact I|exact Ah|apply done_waits|]. intros m ts' x1 Em Hr A1. cbn [List.app] in Em. rewrite answer_cons in Em. injection Em as <- <-. cbn [step_of].
  assert (hl_datagram (x_in (w_ctx (set_ctx (c_world S) x1))) = false) as Di1 by (cbn [set_ctx w_ctx]; apply A1).
  destruct (server_finish (set_ctx (c_world S) x1) k peer (heard (pair_of cfin)) Di1) as (w & cn & Sw).
  { exact T20. }
  { change (w_hash (set_ctx (c_world S) x1)) with (w_hash (c_world S)). rewrite Ef. exact Bf. }
  pose proof (step_still E o (c_world S) x1 (SWaitFinished k peer) (heard (pair_of cfin)) w _ Hr Di Do Sw) as Sl.
  pose proof (tx_still _ _ (tx_read _ _ Tx Hr) Sl) as Tx1. destruct (ahead_still _ _ _ _ _ _ A1 Sl) as (v & A2). apply key_next in A2.
  pose proof (frame_server_wait_finished (set_ctx (c_world S) x1) P (set_ctx (c_world S) x1) k peer (heard (pair_of cfin)) (frame_refl _)) as Fr. rewrite Sw in Fr. destruct Fr as (Fc & _ & Fe). cbn [fst] in Fc, Fe.
  rewrite Sw. cbn [step_fine]. split; [reflexivity|]. split; [constructor|]. split.
  - intros c1 er Ta. apply (acts_calm E gcm) in Ta; [exact (calm_off _ _ _ Ta)|exact Tx1| | | |intros _; exact A2|discriminate].
    + constructor; [exact I|constructor].
    + constructor; [exact (key_fit _ _ _ Ks)|constructor].
    + change (cf_useDTLS (w_cfg w) = false). rewrite Fc. exact Dt.
  - intros c1 kc Ta [= <-] c2 er Oc. pose proof (acts_shape _ _ _ _ _ _ Ta) as (x & p & Sh).
    apply (acts_calm E gcm) in Ta; [|exact Tx1| | | |intros _; exact A2|discriminate].
    + destruct Ta as [Tc Cc]. eapply (connected_calm E gcm (set_hState c1 (Connected cn))); [exact Tc| |exact (fun buf => jo_tickets _ _ _ _ _ _ _ ok o buf Qo)| | |exact Oc].
      * change (cf_useDTLS (c_cfg c1) = false). rewrite Cc. change (cf_useDTLS (w_cfg w) = false). rewrite Fc. exact Dt.
      * change (cf_psks (c_cfg c1) <> None). rewrite Cc. change (cf_psks (w_cfg w) <> None). rewrite Fc. apply (inv_psks _ _ _ (proj1 Sd)). unfold started. now rewrite Hs.
      * change (w_early (c_world c1) = []). rewrite Sh. change (w_early w = []). rewrite Fe. exact (proj1 (proj2 Q2)).
    + constructor; [exact I|constructor].
    + constructor; [exact (key_fit _ _ _ Ks)|constructor].
    + change (cf_useDTLS (w_cfg w) = false). rewrite Fc. exact Dt.
Qed.

(** ** Every turn *)

Lemma phase_client_good ce se t C S up down fuel o s : Qc o -> csound ce C -> ssound se S -> phase Qs E scfg spsks ce se t C S up down -> c_hState C = Some s -> not_connected s -> turn_ok E fuel o C s (down ++ concat (l_out (c_out S))).
Proof.
  intros Qo Sc Sd [[_ [H|[H|H]]]|[H|H]] Hs Nc.
  - eapply hello_client; eauto.
  - eapply flight_client; eauto.
  - eapply wait_client; eauto.
  - exfalso. destruct H as (k & l & cfin & r1 & d & items & _ & Eo & _). eapply connected_not; [exact (eo_connected _ _ _ Eo)|exact Hs|exact Nc].
  - exfalso. apply linked_hstates in H. eapply connected_not; [exact (proj1 H)|exact Hs|exact Nc].
Qed.
Lemma phase_server_good ce se t C S up down fuel o s : Qs o -> csound ce C -> ssound se S -> phase Qs E scfg spsks ce se t C S up down -> c_hState S = Some s -> not_connected s -> turn_ok E fuel o S s (up ++ concat (l_out (c_out C))).
Proof.
  intros Qo Sc Sd [[_ [H|[H|H]]]|[H|H]] Hs Nc.
  - assert (s = SStart \/ exists n, s = SNegotiated n) as [->|(n & ->)].
    { destruct H as (tsu & tsd & _ & _ & _ & _ & _ & _ & _ & G). unfold server_new in G. destruct G as [(_ & Sn & _)|(ws & _ & [(Sn & _)|[(n & Sn & _)|(Sn & _)]])].
      - left. destruct Sn; congruence. - left. destruct Sn; congruence. - right. exists n. congruence. - left. congruence. }
    + eapply hello_server; eauto.
    + eapply flight_server; eauto.
  - destruct H as (ws & k & shs & before & hello & shm & eem & fl & sfin & pre & es & dh & H). cbv zeta in H. destruct H as (Hc & Wt & _ & _ & (_ & r' & Ah & _) & _ & Tu & _). eapply wait_server; eauto.
  - destruct H as (cs & ck & k & shs & before & hello & shm & eem & fl & sfin & pre & es & dh & cevs0 & got & seen & rest & H). cbv zeta in H.
    destruct H as (Hc & _ & Wt & _ & _ & _ & _ & _ & _ & _ & _ & (_ & r' & Ah & _) & _ & Tu & _). eapply wait_server; eauto.
  - eapply done_server; eauto.
  - exfalso. apply linked_hstates in H. eapply connected_not; [exact (proj2 H)|exact Hs|exact Nc].
Qed.

Lemma client_setup_good ce se t C S up down o : Qc o -> csound ce C -> phase Qs E scfg spsks ce se t C S up down -> c_hState C = None ->
  (forall c' q, handshakeSetup E o C = (c', q) -> calmly c' q) /\ small (setup_events E o C).
Proof.
  intros Q0 J1 J2 Hs. destruct J2 as [[_ [H|[H|H]]]|[H|H]].
  - eapply setup_client; eauto.
  - destruct H as (ws & k & shs & before & hello & shm & eem & fl & sfin & pre & es & dh & H). cbv zeta in H. destruct H as (A & _). congruence.
  - destruct H as (cs & ck & k & shs & before & hello & shm & eem & fl & sfin & pre & es & dh & cevs0 & got & seen & rest & H). cbv zeta in H. destruct H as (A & _). congruence.
  - destruct H as (k & l & cfin & r1 & d & items & _ & Eo & _). apply eo_connected in Eo. unfold is_connected in Eo. now rewrite Hs in Eo.
  - apply linked_hstates in H. destruct H as [H _]. unfold is_connected in H. now rewrite Hs in H.
Qed.
Theorem client_steady ce se t n fuel os : session Qc Qs E ccfg scfg cpsks spsks ce se t n -> Forall Qc os ->
  steady (handshake E fuel os (n_client n)) /\ small (handshake_events E fuel os (n_client n)).
Proof.
  intros Ss Qo. apply (session_joined _ _ _ _ _ _ _ ok) in Ss. destruct Ss as (Sc & Sd & Ph & _).
  apply (handshake_fine Qc E (fun evs c => csound evs c /\ phase Qs E scfg spsks evs se t c (n_server n) (n_up n) (n_down n)) fuel) with (tr := n_down n ++ concat (l_out (c_out (n_server n)))) (evs := ce); auto.
  - intros evs o c s c' r0 Q0 [J1 J2] Hs Nc Tn Rt Sm0. assert (csound (evs ++ turn_events E fuel o c s) c') as J3 by (eapply sound_turn; eauto). split; [exact J3|]. eapply phase_client_turn; eauto.
  - intros evs o c c' Q0 [J1 J2] Hs Tn Sm0. split; [eapply sound_setup; eauto|]. eapply phase_client_setup; eauto.
  - intros evs o c s Q0 [J1 J2] Hs Nc. eapply phase_client_good; eauto.
  - intros evs o c Q0 [J1 J2] Hs. eapply client_setup_good; eauto.
Qed.
Theorem server_steady ce se t n fuel os : session Qc Qs E ccfg scfg cpsks spsks ce se t n -> Forall Qs os ->
  steady (handshake E fuel os (n_server n)) /\ small (handshake_events E fuel os (n_server n)).
Proof.
  intros Ss Qo. apply (session_joined _ _ _ _ _ _ _ ok) in Ss. destruct Ss as (Sc & Sd & Ph & _).
  apply (handshake_fine Qs E (fun evs c => ssound evs c /\ phase Qs E scfg spsks ce evs t (n_client n) c (n_up n) (n_down n)) fuel) with (tr := n_up n ++ concat (l_out (c_out (n_client n)))) (evs := se); auto.
  - intros evs o c s c' r0 Q0 [J1 J2] Hs Nc Tn Rt Sm0. assert (ssound (evs ++ turn_events E fuel o c s) c') as J3 by (eapply sound_turn; eauto). split; [exact J3|]. eapply phase_server_turn; eauto.
  - intros evs o c c' Q0 [J1 J2] Hs Tn Sm0. split; [eapply sound_setup; eauto|]. eapply phase_server_setup; eauto.
  - intros evs o c s Q0 [J1 J2] Hs Nc. eapply phase_server_good; eauto.
  - intros evs o c Q0 [J1 J2] Hs. eapply setup_server; eauto.
Qed.
Theorem client_unfailing ce se t n fuel os : session Qc Qs E ccfg scfg cpsks spsks ce se t n -> Forall Qc os ->
  unfailing (snd (handshake E fuel os (n_client n))) /\ small (handshake_events E fuel os (n_client n)).
Proof. intros Ss Qo. destruct (client_steady _ _ _ _ fuel os Ss Qo) as [A B]. split; [now apply steady_unfailing|exact B]. Qed.
Theorem server_unfailing ce se t n fuel os : session Qc Qs E ccfg scfg cpsks spsks ce se t n -> Forall Qs os ->
  unfailing (snd (handshake E fuel os (n_server n))) /\ small (handshake_events E fuel os (n_server n)).
Proof. intros Ss Qo. destruct (server_steady _ _ _ _ fuel os Ss Qo) as [A B]. split; [now apply steady_unfailing|exact B]. Qed.
End Complete.
