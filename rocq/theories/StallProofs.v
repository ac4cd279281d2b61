(** Two compatible ends over a stream do not wait for each other. *)
From Verif Require Import Base Syntax Frame FrameProofs Record RecordSpec RecordProofs RecordProofs2 HandshakeProofs Timer Handshake DtlsProofs Crypto CryptoSpec CryptoProofs Messages MessageProofs MessageProofs3 Pki Negotiation NegotiationProofs Machine MachineProofs Cookie Client Server StepProofs Conn ConnSpec ConnProofs EarlyProofs RunSpec RunProofs TraceProofs SessionSpec SessionProofs HelloProofs ClientRun ClientSession ServerRun ServerSession AgreeSpec AgreeProofs JointSpec ChannelSpec ChannelProofs WireProofs StillProofs PipeProofs MadeProofs TurnProofs HalfProofs JointHello TicketProofs JointProofs CompleteSpec ForwardProofs CompleteProofs CompleteRun CompleteJoint PlaySpec.
Import FrameProofs.

(** ** Reads that come back *)

(** What a reader has before it. *)
Definition mass (x : hctx) : nat := List.length (l_in (hl_conn (x_in x))) + List.length (rl_data (hl_conn (x_in x))).
Definition stock (x : hctx) : nat := 2 * mass x + (if (needed (hl_frame (x_in x)) =? 0)%nat then 1 else 0).

Lemma record_gets now x m ts r' d' x1 rr : ahead x [] (M m :: ts) r' d' -> first_frame (handshakeFraming false) (pending (hl_frame (x_in x))) = None ->
  hl_readRecord now x = (x1, rr) -> rr = Panic \/ (mass x1 < mass x)%nat.
Proof.
  intros Ah Hf H. pose proof Ah as ((D & Q & (Hc & F & Er) & Fr & Rok) & Hd). rewrite app_nil_r in Hd.
  destruct (heads_partial _ _ _ _ _ _ _ _ Hd Hf) as (hdr & body & d1 & pt & Hff & (O1 & O2) & T & H1).
  unfold hl_readRecord in H. rewrite D in H. unfold readRecordE, nextRecord in H. rewrite Hc in H.
  destruct (nextFrame_spec _ (l_in (hl_conn (x_in x))) (l_frame (hl_conn (x_in x))) (recordFraming_lawful (r_datagram (l_core (hl_conn (x_in x))))) F Er)
    as (c' & f' & q & E1 & F' & N' & Le & HH).
  rewrite E1 in H. pose proof Rok as (Dg & Dr & Cr). rewrite Dg in *. fold (rl_data (hl_conn (x_in x))) in HH. destruct HH as [HH|(-> & Hp & Hl)].
  - rewrite HH in Hff. injection Hff as -> <-. pose proof (first_frame_shorter (recordFraming false) _ _ _ (Nat.lt_0_succ 4) HH) as Sh.
    cbv beta iota zeta in H. cbn [l_core l_in l_frame l_out] in H.
    assert (forall core o f n, (mass (set_in x (set_frame (set_recvd (set_conn (x_in x) (mkRl core f' None c' o)) n) f)) < mass x)%nat) as Ms.
    { intros core o f n. unfold mass, rl_data at 1. cbn [x_in set_in set_frame set_recvd set_conn hl_conn l_in l_frame]. change (list byte) with bytes in *. lia. }
    assert (forall core o, (mass (set_in x (set_conn (x_in x) (mkRl core f' None c' o))) < mass x)%nat) as Mc.
    { intros core o. unfold mass, rl_data at 1. cbn [x_in set_in set_frame set_recvd set_conn hl_conn l_in l_frame]. change (list byte) with bytes in *. lia. }
    destruct (N.ltb_spec (c_seq (cur (l_core (hl_conn (x_in x))))) (2 ^ 48 - 1)) as [Sq|Sq].
    + specialize (O1 Sq). pose proof (handle_epoch _ _ _ _ _ Dg O1) as Ep. rewrite O1 in H. cbn [l_core l_in l_frame l_out] in H. rewrite T in H.
      change (Byte.eqb rtHandshake rtHandshake) with true in H. change (Byte.eqb rtHandshake rtAck) with false in H.
      change (Byte.eqb rtHandshake rtAlert) with false in H. cbn [orb negb] in H. rewrite after_record_epoch, Ep, N.eqb_refl in H by exact Cr.
      cbn [negb] in H. injection H as <- <-. right. apply Ms.
    + specialize (O2 Sq). destruct (handleFrame (l_core (hl_conn (x_in x))) false hdr body) as [core y]. cbn [snd] in O2. subst y. injection H as <- <-. now left.
  - cbv beta iota zeta in H. injection H as <- <-. right. unfold mass, rl_data at 1. cbn [x_in set_in set_frame set_recvd set_conn hl_conn l_in l_frame]. rewrite Hp. fold (rl_data (hl_conn (x_in x))).
    destruct Hl as [Hl|(-> & Hl)]; [lia|]. exfalso. cbn [data_of] in Hp. rewrite app_nil_r in Hp. rewrite Hp in Hl. fold (rl_data (hl_conn (x_in x))) in Hl. rewrite Hl in Hff. discriminate.
Qed.

Lemma readFrame_gets fuel : forall now x m ts r' d' x1 rr, ahead x [] (M m :: ts) r' d' -> readFrame_loop fuel now x = (x1, rr) ->
  match rr with Ok _ | Panic => True | Err _ => (stock x1 < stock x)%nat | Fuel => (fuel <= stock x)%nat end.
Proof.
  induction fuel as [|fuel IH]; intros now x m ts r' d' x1 rr Ah H; cbn [readFrame_loop] in H.
  { injection H as <- <-. lia. }
  assert (waits (M m :: ts) d') as Wt by (left; eauto).
  assert (Hstep : forall x2, ahead x2 [] (M m :: ts) r' d' -> (2 * mass x2 < stock x)%nat ->
    (let h := x_in x2 in
        let '(f, r) := process (handshakeFraming (hl_datagram h)) (hl_frame h) in
        let x3 := set_in x2 (set_frame h f) in
        match r with
        | Err e => if negb (hl_nonblocking (x_in x)) && is_wb e then readFrame_loop fuel now x3 else (x3, Err e)
        | _ => (x3, r)
        end) = (x1, rr) ->
    match rr with Ok _ | Panic => True | Err _ => (stock x1 < stock x)%nat | Fuel => (S fuel <= stock x)%nat end).
  { clear H. intros x2 ((D & Q & Wf & Fr & Rok) & Hd) Lt H. cbv zeta in H. rewrite D in H.
    pose proof (process_spec _ _ (handshakeFraming_lawful false) Fr) as P.
    destruct (first_frame (handshakeFraming false) (pending (hl_frame (x_in x2)))) as [[q rest]|] eqn:Ef.
    - destruct P as (f & P & F1 & F2). rewrite P in H. destruct (heads_frame _ _ _ _ _ _ _ _ _ _ Hd Ef) as (-> & H1). injection H as <- <-. exact I.
    - destruct P as (f & P & F1 & F2 & F3). rewrite P in H.
      assert (A3 : ahead (set_in x2 (set_frame (x_in x2) f)) [] (M m :: ts) r' d').
      { split; [split; [exact D|split; [exact Q|split; [exact Wf|split; [exact F1|exact Rok]]]]|].
        cbn [x_in set_in set_frame hl_conn hl_frame]. rewrite F2. exact Hd. }
      assert (stock (set_in x2 (set_frame (x_in x2) f)) = 2 * mass x2)%nat as Es.
      { unfold stock. change (mass (set_in x2 (set_frame (x_in x2) f))) with (mass x2). cbn [x_in set_in set_frame hl_frame]. destruct (Nat.eqb_spec (needed f) 0); lia. }
      destruct (negb (hl_nonblocking (x_in x)) && is_wb WouldBlock).
      + pose proof (IH _ _ _ _ _ _ _ _ A3 H) as G. rewrite Es in G. destruct rr; auto; lia.
      + injection H as <- <-. lia. }
  destruct (0 <? needed (hl_frame (x_in x)))%nat eqn:Ne.
  - apply Nat.ltb_lt in Ne. pose proof Ah as ((_ & _ & _ & Fr & _) & _).
    pose proof (needed_none _ _ (handshakeFraming_lawful false) Fr Ne) as Hn.
    assert (stock x = 2 * mass x)%nat as Ex by (unfold stock; destruct (Nat.eqb_spec (needed (hl_frame (x_in x))) 0); lia).
    destruct (hl_readRecord now x) as [x2 r2] eqn:R. pose proof (record_gets _ _ _ _ _ _ _ _ Ah Hn R) as G.
    destruct (record_ahead _ _ _ _ _ _ _ _ Ah Wt Hn R) as (_ & [->|([->| ->] & A2)]).
    + injection H as <- <-. exact I.
    + destruct G as [G|G]; [discriminate|]. apply (Hstep x2 A2); [lia|exact H].
    + destruct G as [G|G]; [discriminate|]. destruct (negb (hl_nonblocking (x_in x)) && is_wb WouldBlock).
      * apply (Hstep x2 A2); [lia|exact H].
      * injection H as <- <-. rewrite Ex. unfold stock. destruct (_ =? 0)%nat; lia.
  - apply Nat.ltb_ge in Ne. apply (Hstep x Ah); [|exact H]. unfold stock. destruct (Nat.eqb_spec (needed (hl_frame (x_in x))) 0); lia.
Qed.
Lemma read_gets fuel o w m ts r' d' w1 rr : ahead (w_ctx w) [] (M m :: ts) r' d' -> hr_read fuel o w = (w1, rr) ->
  match rr with Ok _ | Panic => True | Err _ => (stock (w_ctx w1) < stock (w_ctx w))%nat | Fuel => (fuel <= stock (w_ctx w))%nat end.
Proof.
  intros Ah H. unfold hr_read in H. destruct (hr_read_loop fuel fuel (o_ms o) (w_ctx w)) as [x1 r1] eqn:R. injection H as <- <-. cbn [w_ctx set_ctx].
  destruct fuel as [|fuel]; [cbn in R; injection R as <- <-; lia|]. cbn [hr_read_loop] in R. set (fu := Datatypes.S fuel) in *. destruct (readMessage fu (o_ms o) (w_ctx w)) as [x2 r2] eqn:Rm.
  assert (waits (M m :: ts) d') as Wt by (left; eauto).
  destruct (readMessage_ahead _ _ _ _ _ _ _ _ _ Ah Wt Rm) as (_ & G). unfold readMessage in Rm. pose proof Ah as ((D & Q & _) & Hd). rewrite check_empty, set_queue_same, set_in_same in Rm by exact Q. cbn [sbind] in Rm.
  destruct (readFrame_loop fu (o_ms o) (w_ctx w)) as [x3 r3] eqn:Rf. pose proof (readFrame_gets _ _ _ _ _ _ _ _ _ Ah Rf) as L.
  destruct r3 as [[hdr body]|e| |]; cbn [sbind] in Rm.
  - destruct (readFrame_ahead _ _ _ _ _ _ _ _ _ Ah Wt Rf) as (_ & m1 & ts1 & _ & Eh & ((D2 & _) & _)). injection Eh as -> ->. rewrite D2 in Rm. cbn [message_of app] in Rm. injection Rm as <- <-. injection R as <- <-. exact I.
  - injection Rm as <- <-. destruct (is_wb e); injection R as <- <-; exact L.
  - injection Rm as <- <-. injection R as <- <-. exact I.
  - injection Rm as <- <-. injection R as <- <-. exact L.
Qed.

(** ** Ends with a message before them are not idle *)

Lemma reads_same s : reads_message s = true -> reads s.
Proof. destruct s; cbn; auto; discriminate. Qed.
(** The first turn of a call that does nothing. *)
Lemma idle_turn E fuel os c s : c_hState c = Some s -> not_connected s -> c_complete c = false -> handshake E fuel os c = (c, Err (EAlert AlertWouldBlock)) -> handshake_events E fuel os c = [] ->
  exists o os' c1 r, os = o :: os' /\ handshake_turn E fuel o c s = (c1, r) /\ turn_events E fuel o c s = [] /\
    ((c1 = c /\ r = Err (EAlert AlertWouldBlock)) \/ exists s' retry, r = Ok (s', retry) /\ cf_nonBlocking (c_cfg c1) = false /\ handshake_loop E fuel os' c1 s' = (c, Err (EAlert AlertWouldBlock)) /\ loop_events E fuel os' c1 s' = []).
Proof.
  intros Hs Nc Cc H Ev. unfold handshake, handshake_events in *. rewrite Cc, Hs in *.
  assert (forall o os, handshake_loop E fuel (o :: os) c s = (call c, '(s, retry) <- handshake_turn E fuel o c s;
      if cf_nonBlocking (c_cfg c) then (c, if retry : bool then alert AlertStatelessRetry else Ok tt) else handshake_loop E fuel os c s)) as El by (intros; destruct s; try reflexivity; contradiction).
  assert (forall o os, loop_events E fuel (o :: os) c s = turn_events E fuel o c s ++ match handshake_turn E fuel o c s with
      | (c, Ok (s, _)) => if cf_nonBlocking (c_cfg c) then [] else loop_events E fuel os c s | _ => [] end) as Ee by (intros; destruct s; try reflexivity; contradiction).
  destruct os as [|o os]; [destruct s; try discriminate; contradiction|]. rewrite El in H. rewrite Ee in Ev. destruct (handshake_turn E fuel o c s) as [c1 r] eqn:T. exists o, os, c1, r.
  apply app_eq_nil in Ev. destruct Ev as [Ev1 Ev2]. split; [reflexivity|]. split; [exact T|]. split; [exact Ev1|]. destruct r as [[s' retry]|e| |]; cbn [sbind] in H; try discriminate.
  - right. exists s', retry. split; [reflexivity|]. destruct (cf_nonBlocking (c_cfg c1)); [destruct retry; discriminate|auto].
  - left. injection H as -> ->. auto.
Qed.
Lemma turn_empty E fuel o c s c' s' retry tr ts r' d' : reads s -> ahead (c_ctx c) tr ts r' d' -> waits ts d' -> handshake_turn E fuel o c s = (c', Ok (s', retry)) -> turn_events E fuel o c s <> [].
Proof.
  intros Rd Ah Wt T. destruct (turn_reads E fuel o c s c' _ _ _ _ _ Rd Ah Wt T I) as [(e & x1 & Er & _)|(m & ts1 & x1 & w & acts & s1 & rt & c1 & _ & _ & _ & _ & H)]; [discriminate|].
  cbv zeta in H. destruct H as (_ & _ & _ & _ & ->). discriminate.
Qed.
Lemma wake_reads (Q : oracle -> Prop) E c s m ts r' d' : c_hState c = Some s -> reads s -> c_complete c = false -> ahead (c_ctx c) [] (M m :: ts) r' d' -> idle Q E c -> False.
Proof.
  intros Hs Rd Cc Ah [(fuel & os & _ & H & Ev)|(s1 & H1 & R1 & o & St)].
  - assert (not_connected s) as Nc by (destruct s; try exact I; contradiction). assert (waits (M m :: ts) d') as Wt by (left; eauto).
    destruct (idle_turn _ _ _ _ _ Hs Nc Cc H Ev) as (o & os' & c1 & r & -> & T & Te & [[-> ->]|(s' & retry & -> & _)]).
    + destruct (turn_wait E fuel o c s c 254 (or_introl eq_refl) T) as (w & N & Ew); [apply Ah| |].
      * intros w N. rewrite next_step in N by exact Rd. destruct (hr_read fuel o (c_world c)) as [w1 rr] eqn:R. destruct (read_ahead _ _ _ _ _ _ _ _ _ Ah Wt R) as (x1 & -> & _ & Rr).
        destruct rr as [hm|e| |]; cbn [sbind] in N; try discriminate.
        -- exfalso. pose proof (firm_step (v_prims E) (v_pki E) o (set_ctx (c_world c) x1) s hm) as F. rewrite N in F. eapply alert_solid; [left; reflexivity|exact F|reflexivity].
        -- injection N as <- _. destruct Rr as (_ & ((D & _) & _)). exact D.
      * rewrite next_step in N by exact Rd. destruct (hr_read fuel o (c_world c)) as [w1 rr] eqn:R. pose proof (read_gets _ _ _ _ _ _ _ _ _ Ah R) as G. destruct rr as [hm|e| |]; cbn [sbind] in N; try discriminate.
        -- pose proof (firm_step (v_prims E) (v_pki E) o w1 s hm) as F. rewrite N in F. eapply alert_solid; [left; reflexivity|exact F|reflexivity].
        -- injection N as <- _. apply (f_equal c_world) in Ew. change (c_world (set_world c w1)) with w1 in Ew. rewrite <- Ew in G. exact (Nat.lt_irrefl _ G).
    + exact (turn_empty _ _ _ _ _ _ _ _ _ _ _ _ Rd Ah Wt T Te).
  - destruct (hr_read (Datatypes.S (stock (c_ctx c))) o (c_world c)) as [w1 rr] eqn:R. pose proof (read_gets _ _ _ _ _ _ _ _ _ Ah R) as G. specialize (St (Datatypes.S (stock (c_ctx c)))). rewrite R in St. cbn [snd] in St. subst rr.
    change (w_ctx (c_world c)) with (c_ctx c) in G. lia.
Qed.

Section Rest.
Variables (Qc Qs : oracle -> Prop) (E : env) (ccfg scfg : config) (cpsks spsks : cache).
Hypothesis ok : joint_ok Qc Qs E ccfg scfg cpsks spsks.
Hypothesis cp : compatible Qc Qs E ccfg scfg cpsks.
Notation P := (v_prims E).
Notation X := (v_pki E).
Notation csound := (sound Qc E ccfg cpsks true).
Notation ssound := (sound Qs E scfg spsks false).
Notation chandler := (jo_chandler _ _ _ _ _ _ _ ok).
Notation ctls := (jo_ctls _ _ _ _ _ _ _ ok).
Notation stls := (jo_stls _ _ _ _ _ _ _ ok).

(** A call at a state that reads, entered by a step of its own. *)
Lemma loop_reads fuel os c1 s1 c tr ts r' d' : reads s1 -> c_hState c1 = Some s1 -> ahead (c_ctx c1) tr ts r' d' -> waits ts d' -> handshake_loop E fuel os c1 s1 = (c, Err (EAlert AlertWouldBlock)) -> loop_events E fuel os c1 s1 = [] ->
  c_hState c = Some s1.
Proof.
  intros Rd H1 Ah Wt H Ev. assert (not_connected s1) as Nc by (destruct s1; try exact I; contradiction).
  destruct os as [|o os]; [destruct s1; try discriminate; contradiction|].
  assert (handshake_loop E fuel (o :: os) c1 s1 = (call c, '(s, retry) <- handshake_turn E fuel o c1 s1;
      if cf_nonBlocking (c_cfg c) then (c, if retry : bool then alert AlertStatelessRetry else Ok tt) else handshake_loop E fuel os c s)) as El by (destruct s1; try reflexivity; contradiction).
  assert (loop_events E fuel (o :: os) c1 s1 = turn_events E fuel o c1 s1 ++ match handshake_turn E fuel o c1 s1 with
      | (c, Ok (s, _)) => if cf_nonBlocking (c_cfg c) then [] else loop_events E fuel os c s | _ => [] end) as Ee by (destruct s1; try reflexivity; contradiction).
  rewrite El in H. rewrite Ee in Ev. apply app_eq_nil in Ev. destruct Ev as [Ev _]. destruct (handshake_turn E fuel o c1 s1) as [c2 r] eqn:T. destruct r as [[s2 retry]|e| |]; cbn [sbind] in H; try discriminate.
  - destruct (turn_empty _ _ _ _ _ _ _ _ _ _ _ _ Rd Ah Wt T Ev).
  - injection H as <- ->. destruct (turn_reads E fuel o c1 s1 c2 _ _ _ _ _ Rd Ah Wt T) as [(e & x1 & _ & -> & _)|(m & ts1 & x1 & w & acts & s2 & rt & c3 & _ & _ & _ & Er & _)]; [exists 254; auto|exact H1|discriminate].
Qed.
Lemma wake_flight2 (Q : oracle -> Prop) c k tr ts r' d' : c_hState c = Some (SWaitFlight2 k) -> c_complete c = false -> ahead (c_ctx c) tr ts r' d' -> waits ts d' -> idle Q E c -> False.
Proof.
  intros Hs Cc Ah Wt [(fuel & os & _ & H & Ev)|(s1 & H1 & R1 & _)]; [|rewrite Hs in H1; injection H1 as <-; discriminate].
  destruct (idle_turn _ _ _ _ _ Hs I Cc H Ev) as (o & os' & c1 & r & -> & T & Te & D).
  assert (firm (next P X o fuel (c_world c) (SWaitFlight2 k))) as Fi by (cbn [next]; unfold server_wait_flight2, done; apply firm_pair; split; discriminate).
  assert (returned r) as Rt by (destruct D as [[_ ->]|(s' & retry & -> & _)]; [exists 254; auto|exact I]).
  destruct (turn_firm E fuel o c (SWaitFlight2 k) c1 r Fi T Rt) as (s' & retry & ->). destruct D as [[_ D]|(s1 & rt & [= <- <-] & _ & Hl & He)]; [discriminate|].
  apply turn_done in T. destruct T as (w & acts & c2 & N & Ta & Td). cbn [next] in N. apply server_wait_flight2_ok in N. destruct N as (-> & _ & -> & Es). cbn [takeActions] in Ta. injection Ta as <-.
  assert (reads s') as Rd by (destruct (p_usingClientAuth (sk_params k)); subst s'; exact I).
  assert (s' <> SWaitFlight2 k) as Ne by (destruct (p_usingClientAuth (sk_params k)); subst s'; discriminate).
  destruct Td as [[_ ->]|(k' & -> & _)]; [|contradiction].
  assert (c_hState c = Some s') as Z. { eapply (loop_reads fuel os' (set_hState (set_world c (c_world c)) s') s' c); eauto. }
  congruence.
Qed.
Lemma wake_server_new ce se C S down : csound ce C -> ssound se S -> phase_hello ce se C S [] down -> c_hState S = None -> idle Qs E S -> False.
Proof.
  intros Sc Sd (tsu & tsd & Pu & Pd & Tu & Td & Q1 & Q2 & Cl & G) Hs [(fuel & os & _ & H & Ev)|(s1 & H1 & R1 & _)]; [|congruence].
  pose proof Pu as (Tx & r' & Ah & Rr & Sy).
  assert (waits tsu []) as Wt. { destruct G as [(_ & _ & -> & _)|(ws & _ & [(_ & -> & _)|[(n & _ & _ & _ & -> & _)|(_ & -> & _)]])]; [right|left|right|right]; eauto. }
  unfold handshake, handshake_events in *. destruct Q2 as (Cc & _). rewrite Cc, Hs in *. destruct os as [|o os]; [discriminate|]. apply app_eq_nil in Ev. destruct Ev as [_ Ev].
  destruct (setup_server Qc Qs E ccfg scfg cpsks spsks cp se S o Sd Hs) as [Ne _]. pose proof (inv_role _ _ _ (proj1 Sd)) as R.
  destruct (handshakeSetup E o S) as [c1 r1] eqn:Hp. destruct r1 as [[]|e| |]; cbn [sbind] in H; try discriminate; [|destruct (Ne _ _ eq_refl)].
  destruct (server_setup _ _ _ _ R Hp) as (w & -> & Wx & _). set (c1 := set_hState (set_world S w) SStart) in *.
  change (c_isClient c1) with (c_isClient S) in *. rewrite R in *. cbn [andb] in H, Ev. change (c_hState c1) with (Some SStart) in *. cbv iota in H, Ev.
  assert (c_hState S = Some SStart) as Z. { eapply (loop_reads fuel os c1 SStart S); eauto; [exact I|]. unfold c_ctx at 1. change (w_ctx (c_world c1)) with (w_ctx w). rewrite Wx. exact Ah. }
  congruence.
Qed.
Lemma wake_client_new ce se C S up down : csound ce C -> phase_hello ce se C S up down -> c_complete C = false -> c_hState C = None -> idle Qc E C -> False.
Proof.
  intros Sc Ph Cc Hs [(fuel & os & Qo & H & Ev)|(s1 & H1 & R1 & _)]; [|congruence].
  unfold handshake, handshake_events in *. rewrite Cc, Hs in *. destruct os as [|o os]; [discriminate|]. inversion Qo; subst. apply app_eq_nil in Ev. destruct Ev as [Ev _].
  destruct (handshakeSetup E o C) as [c1 r1] eqn:Hp. destruct r1 as [[]|e| |]; cbn [sbind] in H; try discriminate.
  - assert (csound (ce ++ setup_events E o C) c1) as S1 by (eapply sound_setup; eauto). pose proof (inv_role _ _ _ (proj1 Sc)) as R.
    assert (ce = []) as ->. { destruct Sc as [_ Pa]. unfold on_path in Pa. rewrite Hs in Pa. apply Pa. }
    destruct (client_setup _ _ _ _ R Hp) as (w & s & acts & retry & c2 & _ & _ & -> & _).
    destruct (client_began Qc Qs E ccfg scfg cpsks spsks ok cp _ _ s S1 eq_refl) as (hello & tl & random & shares & Ec & _). rewrite Ev in Ec. discriminate.
  - destruct (setup_client Qc Qs E ccfg scfg cpsks spsks ok cp ce se C S up down o) as [Ne _]; auto. exact (Ne _ _ Hp).
Qed.
Lemma wake_negotiated (Q : oracle -> Prop) S n : c_hState S = Some (SNegotiated n) -> c_complete S = false -> idle Q E S -> False.
Proof.
  intros Hs Cc [(fuel & os & _ & H & Ev)|(s1 & H1 & R1 & _)]; [|rewrite Hs in H1; injection H1 as <-; discriminate].
  destruct (idle_turn _ _ _ _ _ Hs I Cc H Ev) as (o & os' & c1 & r & -> & T & Te & D).
  assert (returned r) as Rt by (destruct D as [[_ ->]|(s' & retry & -> & _)]; [exists 254; auto|exact I]).
  destruct (turn_firm E fuel o S (SNegotiated n) c1 r (firm_server_negotiated P X o (c_world S) n) T Rt) as (s' & retry & ->). apply turn_done in T. destruct T as (w & acts & c2 & N & _ & _).
  unfold turn_events in Te. rewrite N in Te. cbn [snd read_by List.app] in Te. rewrite queued_sent in Te. change (next P X o fuel (c_world S) (SNegotiated n)) with (server_negotiated P X o (c_world S) n) in N.
  apply server_negotiated_ok in N. destruct N as (random & hexts & eexts & shm & ps & w3 & w4 & eem & finm & auth & ca & _ & _ & Ts & _ & _ & N). cbv zeta in N. destruct (handshake_secrets _ _ _ _ _) as [[chs shs] ms].
  destruct N as (_ & _ & _ & _ & _ & _ & _ & _ & _ & _ & _ & N). destruct N as [-> _]. discriminate Te.
Qed.
Lemma wake_waiting (Q : oracle -> Prop) S k m ts r' d' : waiting S k -> c_complete S = false -> ahead (c_ctx S) [] (M m :: ts) r' d' -> idle Q E S -> False.
Proof.
  intros (s & Hs & Ws) Cc Ah Id. destruct Ws as [->|Ws]; [eapply wake_flight2; eauto; left; eauto|]. eapply wake_reads; [exact Hs| |exact Cc|exact Ah|exact Id]. destruct Ws as [->|[[? ->]|[? ->]]]; exact I.
Qed.
Lemma keys_reads s k : keys_of s = Some k -> reads s.
Proof. destruct s; cbn; auto; discriminate. Qed.
Lemma flight_head k l m : exists p ts, flight_toks E k (l ++ [m]) = M p :: ts.
Proof. unfold flight_toks. destruct l; cbn [map app]; eauto. Qed.
Lemma answer_head k l m : exists p ts, answer_toks E k (l ++ [m]) = M p :: ts.
Proof. unfold answer_toks. destruct l; cbn [map app]; eauto. Qed.

Lemma rest_complete ce se t n : session Qc Qs E ccfg scfg cpsks spsks ce se t n -> at_rest Qc Qs E n -> c_complete (n_client n) = true /\ c_complete (n_server n) = true.
Proof.
  intros Ss (Up & Down & Rc & Rs). apply (session_joined _ _ _ _ _ _ _ ok) in Ss. destruct Ss as (Sc & Sd & Ph & L1 & L2). rewrite Up, Down in Ph. clear Up Down. generalize dependent (n_server n). generalize dependent (n_client n). clear n. intros C Sc L1 Rc S Sd Ph L2 Rs.
  assert (forall xr ts, pipe xr [] (c_ctx C) ts -> exists r', ahead xr [] ts r' []) as Pc. { intros xr ts (_ & r' & A & _). exists r'. change (l_out (outl (c_ctx C))) with (l_out (c_out C)) in A. rewrite L1 in A. exact A. }
  assert (forall xr ts, pipe xr [] (c_ctx S) ts -> exists r', ahead xr [] ts r' []) as Psv. { intros xr ts (_ & r' & A & _). exists r'. change (l_out (outl (c_ctx S))) with (l_out (c_out S)) in A. rewrite L2 in A. exact A. }
  assert (quiet C -> idle Qc E C) as Ic by (intros (Q1 & _); destruct Rc; [congruence|assumption]).
  assert (quiet S -> idle Qs E S) as Is by (intros (Q2 & _); destruct Rs; [congruence|assumption]).
  destruct Ph as [[_ [H|[H|H]]]|[H|H]].
  - exfalso. pose proof H as (tsu & tsd & Pu & Pd & Tu & Td & Q1 & Q2 & Cl & G). specialize (Ic Q1). specialize (Is Q2).
    destruct G as [([Hn|(st & Hc)] & Sn & -> & ->)|(ws & Hc & G)].
    + exact (wake_client_new _ _ _ _ _ _ Sc H (proj1 Q1) Hn Ic).
    + pose proof (fresh Qc Qs E ccfg scfg cpsks spsks ok cp _ _ _ _ _ Sc Sd Sn Tu) as ->. destruct (sound_path _ _ _ _ _ _ _ _ Sc Hc) as (w & _ & Pa). specialize (Pa I).
      destruct (client_history Qc Qs E ccfg scfg cpsks cp chandler ctls stls (jo_curves _ _ _ _ _ _ _ ok) _ _ _ _ Pa eq_refl) as (hello & tl & random & shares & -> & _ & H'). destruct (H' I) as [H1 _].
      assert (received tl = []) as Rn. { destruct Td as (D & _). cbn in D. symmetry in D. apply app_eq_nil in D. destruct D as [D _]. now apply map_eq_nil in D. }
      destruct (H1 Rn) as [_ T]. destruct (T (mkSuite 0 SHA256 0 0) hello hello hello hello) as [_ T']. exact T'.
    + destruct G as [([Sn|Sn] & -> & ->)|[(n & Sn & _)|(Sn & -> & hrr & -> & _)]].
      * exact (wake_server_new _ _ _ _ _ Sc Sd H Sn Is).
      * destruct (Pc _ _ Pu) as (r' & Ah). exact (wake_reads _ _ _ _ _ _ _ _ Sn I (proj1 Q2) Ah Is).
      * exact (wake_negotiated _ _ _ Sn (proj1 Q2) Is).
      * destruct (Psv _ _ Pd) as (r' & Ah). exact (wake_reads _ _ _ _ _ _ _ _ Hc I (proj1 Q1) Ah Ic).
  - exfalso. destruct H as (ws & k & shs & before & hello & shm & eem & fl & sfin & pre & es & dh & H). cbv zeta in H. destruct H as (Hc & _ & _ & _ & _ & Pd & _ & _ & Q1 & _).
    destruct (Psv _ _ Pd) as (r' & Ah). exact (wake_reads _ _ _ _ _ _ _ _ Hc I (proj1 Q1) Ah (Ic Q1)).
  - exfalso. destruct H as (cs & ck & k & shs & before & hello & shm & eem & fl & sfin & pre & es & dh & cevs0 & got & seen & rest & H). cbv zeta in H.
    destruct H as (Hc & Kc & _ & _ & _ & _ & _ & _ & _ & _ & _ & _ & Pd & _ & _ & Q1 & _). destruct (flight_head k rest sfin) as (p & ts & Et). rewrite Et in Pd.
    destruct (Psv _ _ Pd) as (r' & Ah). exact (wake_reads _ _ _ _ _ _ _ _ Hc (keys_reads _ _ Kc) (proj1 Q1) Ah (Ic Q1)).
  - exfalso. destruct H as (k & l & cfin & r1 & d & items & H). cbv zeta in H. destruct H as (_ & _ & _ & Wt & Q2 & _ & _ & Ah & _). rewrite L1 in Ah. cbn [concat app] in Ah. destruct (answer_head k l cfin) as (p & ts & Et). rewrite Et in Ah.
    exact (wake_waiting _ _ _ _ _ _ _ Wt (proj1 Q2) Ah (Is Q2)).
  - destruct H as (s & iu & id & _ & (A & B & _) & _). split; [exact (eo_complete _ _ _ A)|exact (eo_complete _ _ _ B)].
Qed.
End Rest.
