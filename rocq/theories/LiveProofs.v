(** Two compatible ends over a stream come to the end of their handshake. *)
From Verif Require Import Base Syntax Frame FrameProofs Record RecordSpec RecordProofs RecordProofs2 HandshakeProofs Timer Handshake DtlsProofs Crypto CryptoSpec CryptoProofs Messages MessageProofs MessageProofs3 Pki Negotiation NegotiationProofs Machine MachineProofs Cookie Client Server StepProofs Conn ConnSpec ConnProofs EarlyProofs RunSpec RunProofs TraceProofs SessionSpec SessionProofs HelloProofs ClientRun ClientSession ServerRun ServerSession AgreeSpec AgreeProofs JointSpec ChannelSpec ChannelProofs WireProofs StillProofs PipeProofs MadeProofs TurnProofs HalfProofs JointHello TicketProofs JointProofs CompleteSpec ForwardProofs CompleteProofs CompleteRun CompleteJoint PlaySpec StallProofs.
Import FrameProofs.

(** ** Reads do not add to what is ahead *)

Lemma record_most now x x1 rr : rx_ok x -> hl_readRecord now x = (x1, rr) -> (mass x1 <= mass x)%nat /\ match rr with Err _ => hl_frame (x_in x1) = hl_frame (x_in x) | _ => True end.
Proof.
  intros (D & Q & (Hc & F & Er) & Fr & Rok) H. unfold hl_readRecord in H. rewrite D in H. unfold readRecordE, nextRecord in H. rewrite Hc in H.
  destruct (nextFrame_spec _ (l_in (hl_conn (x_in x))) (l_frame (hl_conn (x_in x))) (recordFraming_lawful (r_datagram (l_core (hl_conn (x_in x))))) F Er)
    as (c' & f' & q & E1 & F' & N' & Le & HH).
  rewrite E1 in H. pose proof Rok as (Dg & Dr & Cr). rewrite Dg in *. fold (rl_data (hl_conn (x_in x))) in HH.
  assert (List.length (pending f' ++ data_of c') <= List.length (rl_data (hl_conn (x_in x))))%nat as Sh.
  { destruct HH as [HH|(_ & -> & _)]; [|reflexivity]. apply first_frame_shorter in HH; [|cbn; lia]. change (list byte) with bytes in *. lia. }
  assert (forall core o f n, (mass (set_in x (set_frame (set_recvd (set_conn (x_in x) (mkRl core f' None c' o)) n) f)) <= mass x)%nat) as Ms.
  { intros core o f n. unfold mass, rl_data at 1. cbn [x_in set_in set_frame set_recvd set_conn hl_conn l_in l_frame]. change (list byte) with bytes in *. lia. }
  assert (forall core o, (mass (set_in x (set_conn (x_in x) (mkRl core f' None c' o))) <= mass x)%nat) as Mc.
  { intros core o. unfold mass, rl_data at 1. cbn [x_in set_in set_frame set_recvd set_conn hl_conn l_in l_frame]. change (list byte) with bytes in *. lia. }
  destruct q as [[hdr body]|e| |]; cbv beta iota zeta in H; cbn [l_core l_in l_frame l_out] in H; try (injection H as <- <-; (split; [apply Mc|try exact I; reflexivity])).
  destruct (handleFrame (l_core (hl_conn (x_in x))) false hdr body) as [core [pt|e| |]]; cbv beta iota zeta in H; cbn [l_core l_in l_frame l_out] in H; try (injection H as <- <-; (split; [apply Mc|try exact I; reflexivity])).
  destruct (negb _); [injection H as <- <-; (split; [apply Mc|try exact I; reflexivity])|]. destruct (Byte.eqb (p_type pt) rtAck); [injection H as <- <-; (split; [apply Mc|try exact I; reflexivity])|].
  destruct (Byte.eqb (p_type pt) rtAlert); [destruct (p_fragment pt) as [|? [|? ?]]; injection H as <- <-; (split; [apply Mc|try exact I; reflexivity])|].
  destruct (negb _); [destruct (_ || _); injection H as <- <-; (split; [apply Mc|try exact I; reflexivity])|]. injection H as <- <-. split; [apply Ms|exact I].
Qed.
Lemma readFrame_most fuel : forall now x ts r' d' x1 rr, ahead x [] ts r' d' -> waits ts d' -> readFrame_loop fuel now x = (x1, rr) -> match rr with Err _ => (stock x1 <= stock x)%nat | _ => True end.
Proof.
  induction fuel as [|fuel IH]; intros now x ts r' d' x1 rr Ah Wt H; cbn [readFrame_loop] in H.
  { injection H as <- <-. exact I. }
  assert (Hstep : forall x2, ahead x2 [] ts r' d' -> (2 * mass x2 <= stock x)%nat ->
    (let h := x_in x2 in
        let '(f, r) := process (handshakeFraming (hl_datagram h)) (hl_frame h) in
        let x3 := set_in x2 (set_frame h f) in
        match r with
        | Err e => if negb (hl_nonblocking (x_in x)) && is_wb e then readFrame_loop fuel now x3 else (x3, Err e)
        | _ => (x3, r)
        end) = (x1, rr) -> match rr with Err _ => (stock x1 <= stock x)%nat | _ => True end).
  { clear H. intros x2 ((D & Q & Wf & Fr & Rok) & Hd) Lt H. cbv zeta in H. rewrite D in H.
    pose proof (process_spec _ _ (handshakeFraming_lawful false) Fr) as P.
    destruct (first_frame (handshakeFraming false) (pending (hl_frame (x_in x2)))) as [[q rest]|] eqn:Ef.
    - destruct P as (f & P & F1 & F2). rewrite P in H. destruct Wt as [(m & ts' & ->)|[-> ->]].
      + destruct (heads_frame _ _ _ _ _ _ _ _ _ _ Hd Ef) as (-> & H1). injection H as <- <-. exact I.
      + exfalso. destruct (heads_done _ _ _ _ _ Hd) as [Z _]. rewrite Z in Ef. discriminate.
    - destruct P as (f & P & F1 & F2 & F3). rewrite P in H.
      assert (A3 : ahead (set_in x2 (set_frame (x_in x2) f)) [] ts r' d').
      { split; [split; [exact D|split; [exact Q|split; [exact Wf|split; [exact F1|exact Rok]]]]|].
        cbn [x_in set_in set_frame hl_conn hl_frame]. rewrite F2. exact Hd. }
      assert (stock (set_in x2 (set_frame (x_in x2) f)) = 2 * mass x2)%nat as Es.
      { unfold stock. change (mass (set_in x2 (set_frame (x_in x2) f))) with (mass x2). cbn [x_in set_in set_frame hl_frame]. destruct (Nat.eqb_spec (needed f) 0); lia. }
      destruct (negb (hl_nonblocking (x_in x)) && is_wb WouldBlock).
      + pose proof (IH _ _ _ _ _ _ _ A3 Wt H) as G. rewrite Es in G. destruct rr; auto; lia.
      + injection H as <- <-. lia. }
  destruct (0 <? needed (hl_frame (x_in x)))%nat eqn:Ne.
  - apply Nat.ltb_lt in Ne. pose proof Ah as ((_ & _ & _ & Fr & _) & _).
    pose proof (needed_none _ _ (handshakeFraming_lawful false) Fr Ne) as Hn.
    assert (stock x = 2 * mass x)%nat as Ex by (unfold stock; destruct (Nat.eqb_spec (needed (hl_frame (x_in x))) 0); lia).
    destruct (hl_readRecord now x) as [x2 r2] eqn:R. pose proof (record_most _ _ _ _ (proj1 Ah) R) as [G Gf].
    destruct (record_ahead _ _ _ _ _ _ _ _ Ah Wt Hn R) as (Hr & [->|([->| ->] & A2)]).
    + injection H as <- <-. exact I.
    + apply (Hstep x2 A2); [lia|exact H].
    + destruct (negb (hl_nonblocking (x_in x)) && is_wb WouldBlock).
      * apply (Hstep x2 A2); [lia|exact H].
      * injection H as <- <-. unfold stock. rewrite Gf. lia.
  - apply Nat.ltb_ge in Ne. apply (Hstep x Ah); [|exact H]. unfold stock. destruct (Nat.eqb_spec (needed (hl_frame (x_in x))) 0); lia.
Qed.
Lemma read_most fuel o w ts r' d' w1 e : ahead (w_ctx w) [] ts r' d' -> waits ts d' -> hr_read fuel o w = (w1, Err e) -> (stock (w_ctx w1) <= stock (w_ctx w))%nat.
Proof.
  intros Ah Wt H. unfold hr_read in H. destruct (hr_read_loop fuel fuel (o_ms o) (w_ctx w)) as [x1 r1] eqn:R. injection H as <- ->. cbn [w_ctx set_ctx].
  destruct fuel as [|fuel]; [discriminate|]. cbn [hr_read_loop] in R. set (fu := Datatypes.S fuel) in *. destruct (readMessage fu (o_ms o) (w_ctx w)) as [x2 r2] eqn:Rm.
  unfold readMessage in Rm. pose proof Ah as ((D & Q & _) & Hd). rewrite check_empty, set_queue_same, set_in_same in Rm by exact Q. cbn [sbind] in Rm.
  destruct (readFrame_loop fu (o_ms o) (w_ctx w)) as [x3 r3] eqn:Rf. pose proof (readFrame_most _ _ _ _ _ _ _ _ Ah Wt Rf) as L.
  destruct r3 as [[hdr body]|e1| |]; cbn [sbind] in Rm.
  - destruct (readFrame_ahead _ _ _ _ _ _ _ _ _ Ah Wt Rf) as (_ & m1 & ts1 & _ & Eh & ((D2 & _) & _)). injection Eh as -> ->. rewrite D2 in Rm. cbn [message_of app] in Rm. injection Rm as <- <-. discriminate.
  - injection Rm as <- <-. destruct (is_wb e1); injection R as <- <-; exact L.
  - injection Rm as <- <-. discriminate.
  - injection Rm as <- <-. discriminate.
Qed.

(** ** Calls *)

(** A call with no events, other than steps that neither read nor send. *)
Definition spare (c c' : conn) : Prop := c_hState c' = c_hState c /\ c_complete c' = c_complete c /\ l_out (c_out c') = l_out (c_out c) /\ (stock (c_ctx c') <= stock (c_ctx c))%nat.
Lemma spare_refl c : spare c c. Proof. repeat split; lia. Qed.
Lemma read_out x x1 : has_read x x1 -> x_out x1 = x_out x.
Proof. intros (l & f & n & ->). reflexivity. Qed.

Section Call.
Variables (E : env).
Lemma turn_waits fuel o c s c' ts r' d' : reads s -> ahead (c_ctx c) [] ts r' d' -> waits ts d' -> handshake_turn E fuel o c s = (c', Err WouldBlock) ->
  spare c c' /\ ((exists m ts', ts = M m :: ts') -> (stock (c_ctx c') < stock (c_ctx c))%nat).
Proof.
  intros Rd Ah Wt T. destruct (turn_reads E fuel o c s c' _ _ _ _ _ Rd Ah Wt T) as [(e & x1 & _ & -> & Hr & A1 & _)|(m & ts1 & x1 & w & acts & s2 & rt & c3 & _ & _ & _ & Er & _)]; [exists 254; auto| |discriminate].
  destruct (turn_wait E fuel o c s (upd_ctx c x1) 254 (or_introl eq_refl) T) as (w & N & Ew); [apply A1| |].
  - intros w N. rewrite next_step in N by exact Rd. destruct (hr_read fuel o (c_world c)) as [w1 rr] eqn:R. destruct (read_ahead _ _ _ _ _ _ _ _ _ Ah Wt R) as (x2 & -> & _ & Rr).
    destruct rr as [hm|e1| |]; cbn [sbind] in N; try discriminate.
    + exfalso. pose proof (firm_step (v_prims E) (v_pki E) o (set_ctx (c_world c) x2) s hm) as F. rewrite N in F. eapply alert_solid; [left; reflexivity|exact F|reflexivity].
    + injection N as <- _. destruct Rr as (_ & ((D & _) & _)). exact D.
  - rewrite next_step in N by exact Rd. destruct (hr_read fuel o (c_world c)) as [w1 rr] eqn:R.
    destruct rr as [hm|e1| |]; cbn [sbind] in N; try discriminate.
    + exfalso. pose proof (firm_step (v_prims E) (v_pki E) o w1 s hm) as F. rewrite N in F. eapply alert_solid; [left; reflexivity|exact F|reflexivity].
    + injection N as <- ->. apply (f_equal c_world) in Ew. change (c_world (set_world c w1)) with w1 in Ew. change (c_ctx (upd_ctx c x1)) with x1. subst w1.
      pose proof (read_most _ _ _ _ _ _ _ _ Ah Wt R) as L. split.
      * split; [reflexivity|]. split; [reflexivity|]. split; [|exact L]. unfold c_out. change (c_ctx (upd_ctx c x1)) with x1. now rewrite (read_out _ _ Hr).
      * intros (m & ts' & ->). exact (read_gets _ _ _ _ _ _ _ _ _ Ah R).
Qed.

(** A call at a state that reads. *)
Lemma loop_calls fuel os c s c' r ts r' d' : reads s -> c_hState c = Some s -> ahead (c_ctx c) [] ts r' d' -> waits ts d' -> handshake_loop E fuel os c s = (c', r) -> unfailing r ->
  (ended r \/ (loop_blocked E fuel os c s /\ stalled c')) -> loop_events E fuel os c s <> [] \/ (spare c c' /\ ((exists m ts', ts = M m :: ts') -> (stock (c_ctx c') < stock (c_ctx c))%nat)).
Proof.
  intros Rd Hs Ah Wt H U Ca. assert (not_connected s) as Nc by (destruct s; try exact I; contradiction).
  destruct os as [|o os].
  { assert (handshake_loop E fuel [] c s = (c, Fuel)) as El by (destruct s; try reflexivity; contradiction). rewrite El in H. injection H as <- <-. destruct Ca as [[]|[_ (s1 & H1 & R1 & o & St)]].
    right. split; [apply spare_refl|]. intros (m & ts' & ->). exfalso. destruct (hr_read (Datatypes.S (stock (c_ctx c))) o (c_world c)) as [w1 rr] eqn:R.
    pose proof (read_gets _ _ _ _ _ _ _ _ _ Ah R) as G. specialize (St (Datatypes.S (stock (c_ctx c)))). rewrite R in St. cbn [snd] in St. subst rr. change (w_ctx (c_world c)) with (c_ctx c) in G. lia. }
  assert (handshake_loop E fuel (o :: os) c s = (call c, '(s, retry) <- handshake_turn E fuel o c s;
      if cf_nonBlocking (c_cfg c) then (c, if retry : bool then alert AlertStatelessRetry else Ok tt) else handshake_loop E fuel os c s)) as El by (destruct s; try reflexivity; contradiction).
  assert (loop_events E fuel (o :: os) c s = turn_events E fuel o c s ++ match handshake_turn E fuel o c s with
      | (c, Ok (s, _)) => if cf_nonBlocking (c_cfg c) then [] else loop_events E fuel os c s | _ => [] end) as Ee by (destruct s; try reflexivity; contradiction).
  rewrite El in H. rewrite Ee. cbn [loop_blocked] in Ca. destruct (handshake_turn E fuel o c s) as [c2 q] eqn:T. destruct q as [[s2 retry]|e| |]; cbn [sbind] in H.
  - left. intros Z. apply app_eq_nil in Z. destruct Z as [Z _]. exact (turn_empty _ _ _ _ _ _ _ _ _ _ _ _ Rd Ah Wt T Z).
  - injection H as <- <-. right. rewrite (U _ eq_refl) in T. exact (turn_waits _ _ _ _ _ _ _ _ Rd Ah Wt T).
  - injection H as <- <-. destruct Ca as [[]|[[] _]].
  - injection H as <- <-. destruct Ca as [[]|[[] _]].
Qed.
End Call.

Section Round.
Variables (Qc Qs : oracle -> Prop) (E : env) (ccfg scfg : config) (cpsks spsks : cache).
Hypothesis ok : joint_ok Qc Qs E ccfg scfg cpsks spsks.
Hypothesis cp : compatible Qc Qs E ccfg scfg cpsks.
Notation P := (v_prims E).
Notation X := (v_pki E).
Notation csound := (sound Qc E ccfg cpsks true).
Notation ssound := (sound Qs E scfg spsks false).
Notation chandler := (jo_chandler _ _ _ _ _ _ _ ok).
Notation shandler := (jo_shandler _ _ _ _ _ _ _ ok).
Notation msized := (jo_sized _ _ _ _ _ _ _ ok).
Notation ctls := (jo_ctls _ _ _ _ _ _ _ ok).
Notation stls := (jo_stls _ _ _ _ _ _ _ ok).

(** States that are left without a message. *)
Definition bit (c : conn) : nat := match c_hState c with None | Some (SWaitFlight2 _) => 0 | _ => 1 end.
Definition moved (evs : list event) (c c' : conn) (due : Prop) : Prop := evs <> [] \/ (bit c < bit c')%nat \/ (spare c c' /\ (due -> (stock (c_ctx c') < stock (c_ctx c))%nat)).
Definition calls (fuel : nat) (os : list oracle) (c c' : conn) : Prop := exists r, handshake E fuel os c = (c', r) /\ unfailing r /\ (ended r \/ (blocked E fuel os c /\ stalled c')).

Lemma calls_complete fuel os c c' (due : Prop) : c_complete c = true -> calls fuel os c c' -> ~ due -> moved (handshake_events E fuel os c) c c' due.
Proof. intros Cc (r & H & _) Nd. unfold handshake in H. rewrite Cc in H. injection H as <- _. right. right. split; [apply spare_refl|contradiction]. Qed.
Lemma calls_reads fuel os c s c' ts r' d' : c_hState c = Some s -> reads s -> c_complete c = false -> ahead (c_ctx c) [] ts r' d' -> waits ts d' -> calls fuel os c c' ->
  moved (handshake_events E fuel os c) c c' (exists m ts', ts = M m :: ts').
Proof.
  intros Hs Rd Cc Ah Wt (r & H & U & Ca). unfold handshake, handshake_events, blocked in *. rewrite Cc, Hs in *.
  destruct (loop_calls E fuel os c s c' r ts r' d' Rd Hs Ah Wt H U Ca) as [A|A]; [left; exact A|right; right; exact A].
Qed.
Lemma not_stalled c s : c_hState c = Some s -> reads_message s = false -> stalled c -> False.
Proof. intros H R (s1 & H1 & R1 & _). congruence. Qed.
Lemma firm_turn fuel o c s c1 q c' (r : res unit) : firm (next P X o fuel (c_world c) s) -> handshake_turn E fuel o c s = (c1, q) ->
  match q with Ok _ => True | Err e => r = Err e | Panic => r = Panic | Fuel => r = Fuel end -> unfailing r -> ended r \/ (match q with Ok _ => True | _ => False end /\ stalled c') -> exists s' retry, q = Ok (s', retry).
Proof.
  intros Fi T Eq U Ca. destruct q as [[s' retry]|e| |]; [eauto| | |].
  - subst r. pose proof (U _ eq_refl) as ->. apply (turn_firm E fuel o c s c1 _ Fi T). exists 254. auto.
  - subst r. destruct Ca as [[]|[[] _]].
  - subst r. destruct Ca as [[]|[[] _]].
Qed.
Lemma first_turn fuel os c s c' : c_hState c = Some s -> not_connected s -> c_complete c = false -> reads_message s = false -> (forall o, firm (next P X o fuel (c_world c) s)) -> calls fuel os c c' ->
  exists o os' c1 s' retry r, os = o :: os' /\ handshake_turn E fuel o c s = (c1, Ok (s', retry)) /\ unfailing r /\
    handshake_events E fuel os c = turn_events E fuel o c s ++ (if cf_nonBlocking (c_cfg c1) then [] else loop_events E fuel os' c1 s') /\
    (if cf_nonBlocking (c_cfg c1) then c' = c1 else handshake_loop E fuel os' c1 s' = (c', r) /\ (ended r \/ (loop_blocked E fuel os' c1 s' /\ stalled c'))).
Proof.
  intros Hs Nc Cc Rm Fi (r & H & U & Ca). unfold handshake, handshake_events, blocked in *. rewrite Cc, Hs in *.
  destruct os as [|o os].
  { assert (handshake_loop E fuel [] c s = (c, Fuel)) as El by (destruct s; try reflexivity; contradiction). rewrite El in H. injection H as <- <-. destruct Ca as [[]|[_ St]]. destruct (not_stalled _ _ Hs Rm St). }
  assert (handshake_loop E fuel (o :: os) c s = (call c, '(s, retry) <- handshake_turn E fuel o c s;
      if cf_nonBlocking (c_cfg c) then (c, if retry : bool then alert AlertStatelessRetry else Ok tt) else handshake_loop E fuel os c s)) as El by (destruct s; try reflexivity; contradiction).
  assert (loop_events E fuel (o :: os) c s = turn_events E fuel o c s ++ match handshake_turn E fuel o c s with
      | (c, Ok (s, _)) => if cf_nonBlocking (c_cfg c) then [] else loop_events E fuel os c s | _ => [] end) as Ee by (destruct s; try reflexivity; contradiction).
  rewrite El in H. rewrite Ee. cbn [loop_blocked] in Ca. destruct (handshake_turn E fuel o c s) as [c1 q] eqn:T.
  destruct (firm_turn fuel o c s c1 q c' r (Fi o) T) as (s' & retry & ->); [destruct q as [[? ?]|? | |]; cbn [sbind] in H; try exact I; injection H as _ <-; reflexivity|exact U| |].
  { destruct Ca as [Ca|[Ca St]]; [left; exact Ca|right]. split; [|exact St]. destruct q as [[? ?]|? | |]; try exact Ca; exact I. }
  cbn [sbind] in H. exists o, os, c1, s', retry, r. split; [reflexivity|]. split; [exact T|]. split; [exact U|]. split; [reflexivity|].
  destruct (cf_nonBlocking (c_cfg c1)); [injection H as <- _; reflexivity|]. split; [exact H|exact Ca].
Qed.
Lemma calls_flight2 fuel os c k c' ts r' d' (due : Prop) : c_hState c = Some (SWaitFlight2 k) -> c_complete c = false -> ahead (c_ctx c) [] ts r' d' -> waits ts d' -> calls fuel os c c' -> moved (handshake_events E fuel os c) c c' due.
Proof.
  intros Hs Cc Ah Wt Ca.
  destruct (first_turn fuel os c _ c' Hs I Cc eq_refl) as (o & os' & c1 & s' & retry & r & -> & T & U & -> & D); [|exact Ca|].
  { intros o. cbn [next]. unfold server_wait_flight2, done. apply firm_pair; split; discriminate. }
  pose proof T as T0. apply turn_done in T. destruct T as (w & acts & c2 & N & Ta & Td). cbn [next] in N. apply server_wait_flight2_ok in N. destruct N as (-> & _ & -> & Es). cbn [takeActions] in Ta. injection Ta as <-.
  assert (reads s') as Rd by (destruct (p_usingClientAuth (sk_params k)); subst s'; exact I).
  assert (forall c3, c_hState c3 = Some s' -> (bit c < bit c3)%nat) as Up. { intros c3 H3. unfold bit. rewrite Hs, H3. destruct (p_usingClientAuth (sk_params k)); subst s'; lia. }
  destruct Td as [[_ ->]|(k' & -> & _)]; [|contradiction]. set (c1 := set_hState (set_world c (c_world c)) s') in *.
  destruct (cf_nonBlocking (c_cfg c1)).
  - right. left. subst c'. apply Up. reflexivity.
  - destruct D as [H D]. destruct (loop_calls E fuel os' c1 s' c' r ts r' d' Rd eq_refl Ah Wt H U D) as [A|[(A & _) _]].
    + left. intros Z. apply app_eq_nil in Z. destruct Z as [_ Z]. exact (A Z).
    + right. left. apply Up. rewrite A. reflexivity.
Qed.
Lemma negotiated_events fuel o c n c1 s' retry : handshake_turn E fuel o c (SNegotiated n) = (c1, Ok (s', retry)) -> turn_events E fuel o c (SNegotiated n) <> [].
Proof.
  intros T Te. apply turn_done in T. destruct T as (w & acts & c2 & N & _ & _).
  unfold turn_events in Te. rewrite N in Te. cbn [snd read_by List.app] in Te. rewrite queued_sent in Te. change (next P X o fuel (c_world c) (SNegotiated n)) with (server_negotiated P X o (c_world c) n) in N.
  apply server_negotiated_ok in N. destruct N as (random & hexts & eexts & shm & ps & w3 & w4 & eem & finm & auth & ca & _ & _ & Ts & _ & _ & N). cbv zeta in N. destruct (handshake_secrets _ _ _ _ _) as [[chs shs] ms].
  destruct N as (_ & _ & _ & _ & _ & _ & _ & _ & _ & _ & _ & N). destruct N as [-> _]. discriminate Te.
Qed.
Lemma calls_negotiated fuel os c n c' (due : Prop) : c_hState c = Some (SNegotiated n) -> c_complete c = false -> calls fuel os c c' -> moved (handshake_events E fuel os c) c c' due.
Proof.
  intros Hs Cc Ca. left.
  destruct (first_turn fuel os c _ c' Hs I Cc eq_refl) as (o & os' & c1 & s' & retry & r & -> & T & U & -> & D); [|exact Ca|].
  { intros o. exact (firm_server_negotiated P X o (c_world c) n). }
  intros Z. apply app_eq_nil in Z. destruct Z as [Te _]. exact (negotiated_events _ _ _ _ _ _ _ T Te).
Qed.
Lemma calls_client_new fuel os ce se C S up down c' (due : Prop) : Forall Qc os -> csound ce C -> phase_hello ce se C S up down -> c_complete C = false -> c_hState C = None -> calls fuel os C c' -> moved (handshake_events E fuel os C) C c' due.
Proof.
  intros Qo Sc Ph Cc Hs (r & H & U & Ca). left. intros Ev. unfold handshake, handshake_events, blocked in *. rewrite Cc, Hs in *.
  destruct os as [|o os]; [injection H as <- <-; destruct Ca as [[]|[_ (s1 & H1 & _)]]; congruence|]. inversion Qo; subst. apply app_eq_nil in Ev. destruct Ev as [Ev _].
  destruct (handshakeSetup E o C) as [c1 r1] eqn:Hp. destruct r1 as [[]|e| |]; cbn [sbind] in H.
  - assert (csound (ce ++ setup_events E o C) c1) as S1 by (eapply sound_setup; eauto). pose proof (inv_role _ _ _ (proj1 Sc)) as R.
    assert (ce = []) as ->. { destruct Sc as [_ Pa]. unfold on_path in Pa. rewrite Hs in Pa. apply Pa. }
    destruct (client_setup _ _ _ _ R Hp) as (w & s & acts & retry & c2 & _ & _ & -> & _).
    destruct (client_began Qc Qs E ccfg scfg cpsks spsks ok cp _ _ s S1 eq_refl) as (hello & tl & random & shares & Ec & _). rewrite Ev in Ec. discriminate.
  - destruct (setup_client Qc Qs E ccfg scfg cpsks spsks ok cp ce se C S up down o) as [Ne _]; auto. exact (Ne _ _ Hp).
  - injection H as <- <-. destruct Ca as [[]|[[] _]].
  - injection H as <- <-. destruct Ca as [[]|[[] _]].
Qed.
Lemma calls_server_new fuel os se S c' ts r' (due : Prop) : ssound se S -> c_complete S = false -> c_hState S = None -> ahead (c_ctx S) [] ts r' [] -> waits ts [] -> calls fuel os S c' -> moved (handshake_events E fuel os S) S c' due.
Proof.
  intros Sd Cc Hs Ah Wt (r & H & U & Ca). unfold handshake, handshake_events, blocked in *. rewrite Cc, Hs in *.
  destruct os as [|o os]; [injection H as <- <-; destruct Ca as [[]|[_ (s1 & H1 & _)]]; congruence|].
  destruct (setup_server Qc Qs E ccfg scfg cpsks spsks cp se S o Sd Hs) as [Ne _]. pose proof (inv_role _ _ _ (proj1 Sd)) as R.
  destruct (handshakeSetup E o S) as [c1 r1] eqn:Hp. destruct r1 as [[]|e| |]; cbn [sbind] in H; [|destruct (Ne _ _ eq_refl)|injection H as <- <-; destruct Ca as [[]|[[] _]]..].
  destruct (server_setup _ _ _ _ R Hp) as (w & -> & Wx & _). set (c1 := set_hState (set_world S w) SStart) in *.
  change (c_isClient c1) with (c_isClient S) in *. rewrite R in *. cbn [andb] in *. change (c_hState c1) with (Some SStart) in *. cbv iota in *.
  destruct (loop_calls E fuel os c1 SStart c' r ts r' [] I eq_refl) as [A|[(A & _) _]]; [|exact Wt|exact H|exact U|exact Ca| |].
  - unfold c_ctx at 1. change (w_ctx (c_world c1)) with (w_ctx w). rewrite Wx. exact Ah.
  - left. intros Z. apply app_eq_nil in Z. destruct Z as [_ Z]. exact (A Z).
  - right. left. unfold bit. rewrite Hs, A. cbn. lia.
Qed.
Lemma calls_waiting fuel os S k c' ts r' d' : waiting S k -> c_complete S = false -> ahead (c_ctx S) [] ts r' d' -> waits ts d' -> calls fuel os S c' ->
  moved (handshake_events E fuel os S) S c' (exists m ts', ts = M m :: ts').
Proof.
  intros (s & Hs & Ws) Cc Ah Wt Ca. destruct Ws as [->|Ws]; [eapply calls_flight2; eauto|]. eapply calls_reads; [exact Hs| |exact Cc|exact Ah|exact Wt|exact Ca]. destruct Ws as [->|[[? ->]|[? ->]]]; exact I.
Qed.

(** With nothing in flight, one of the two ends has something to do, and the other does no harm. *)
Lemma calls_both ce se t C S cf co sf so C' S' : session Qc Qs E ccfg scfg cpsks spsks ce se t (mkNet C S [] []) -> Forall Qc co -> calls cf co C C' -> calls sf so S S' ->
  (c_complete C = true /\ c_complete S = true) \/
  exists d1 d2 : Prop, (d1 \/ d2) /\ moved (handshake_events E cf co C) C C' d1 /\ moved (handshake_events E sf so S) S S' d2.
Proof.
  intros Ss Qo Kc Ks. apply (session_joined _ _ _ _ _ _ _ ok) in Ss. destruct Ss as (Sc & Sd & Ph & L1 & L2). cbn [n_client n_server n_up n_down] in *.
  assert (forall xr ts, pipe xr [] (c_ctx C) ts -> exists r', ahead xr [] ts r' []) as Pc. { intros xr ts (_ & r' & A & _). exists r'. change (l_out (outl (c_ctx C))) with (l_out (c_out C)) in A. rewrite L1 in A. exact A. }
  assert (forall xr ts, pipe xr [] (c_ctx S) ts -> exists r', ahead xr [] ts r' []) as Psv. { intros xr ts (_ & r' & A & _). exists r'. change (l_out (outl (c_ctx S))) with (l_out (c_out S)) in A. rewrite L2 in A. exact A. }
  assert (waits [] []) as W0 by (right; auto). assert (forall m ts, waits (M m :: ts) []) as W1 by (left; eauto).
  destruct Ph as [[_ [H|[H|H]]]|[H|H]].
  - right. pose proof H as (tsu & tsd & Pu & Pd & Tu & Td & Q1 & Q2 & Cl & G). destruct (Pc _ _ Pu) as (ru & Au). destruct (Psv _ _ Pd) as (rd & Ad).
    destruct G as [([Hn|(st & Hc)] & Sn & -> & ->)|(ws & Hc & G)].
    + exists True. destruct Sn as [Sn|Sn].
      * exists True. split; [auto|]. split; [eapply calls_client_new; eauto; exact (proj1 Q1)|eapply calls_server_new; eauto; exact (proj1 Q2)].
      * eexists. split; [auto|]. split; [eapply calls_client_new; eauto; exact (proj1 Q1)|]. eapply calls_reads; eauto; [exact I|exact (proj1 Q2)].
    + exfalso. pose proof (fresh Qc Qs E ccfg scfg cpsks spsks ok cp _ _ _ _ _ Sc Sd Sn Tu) as ->. destruct (sound_path _ _ _ _ _ _ _ _ Sc Hc) as (w & _ & Pa). specialize (Pa I).
      destruct (client_history Qc Qs E ccfg scfg cpsks cp chandler ctls stls (jo_curves _ _ _ _ _ _ _ ok) _ _ _ _ Pa eq_refl) as (hello & tl & random & shares & -> & _ & H'). destruct (H' I) as [H1 _].
      assert (received tl = []) as Rn. { destruct Td as (D & _). cbn in D. symmetry in D. apply app_eq_nil in D. destruct D as [D _]. now apply map_eq_nil in D. }
      destruct (H1 Rn) as [_ T]. destruct (T (mkSuite 0 SHA256 0 0) hello hello hello hello) as [_ T']. exact T'.
    + assert (forall ts, tsd = ts -> waits ts [] -> moved (handshake_events E cf co C) C C' (exists m ts', ts = M m :: ts')) as Mc.
      { intros ts -> Wt. eapply calls_reads; [exact Hc|exact I|exact (proj1 Q1)|exact Ad|exact Wt|exact Kc]. }
      destruct G as [([Sn|Sn] & -> & ->)|[(n & Sn & _ & _ & -> & ->)|(Sn & -> & hrr & -> & _)]].
      * eexists. exists True. split; [auto|]. split; [exact (Mc _ eq_refl W0)|]. eapply calls_server_new; [exact Sd|exact (proj1 Q2)|exact Sn|exact Au|apply W1|exact Ks].
      * eexists. eexists. split; [|split; [exact (Mc _ eq_refl W0)|eapply calls_reads; [exact Sn|exact I|exact (proj1 Q2)|exact Au|apply W1|exact Ks]]]. right. eauto.
      * eexists. exists True. split; [auto|]. split; [exact (Mc _ eq_refl W0)|]. eapply calls_negotiated; [exact Sn|exact (proj1 Q2)|exact Ks].
      * eexists. eexists. split; [|split; [exact (Mc _ eq_refl (W1 _ _))|eapply calls_reads; [exact Sn|exact I|exact (proj1 Q2)|exact Au|exact W0|exact Ks]]]. left. eauto.
  - right. destruct H as (ws & k & shs & before & hello & shm & eem & fl & sfin & pre & es & dh & H). cbv zeta in H. destruct H as (Hc & Wt & _ & _ & Ho & Pd & _ & _ & Q1 & Q2).
    destruct (Psv _ _ Pd) as (rd & Ad). destruct Ho as (_ & ru & Au & _). change (l_out (outl (c_ctx C))) with (l_out (c_out C)) in Au. rewrite L1 in Au.
    eexists. eexists. split; [|split; [eapply calls_reads; [exact Hc|exact I|exact (proj1 Q1)|exact Ad|apply W1|exact Kc]|eapply calls_waiting; [exact Wt|exact (proj1 Q2)|exact Au|exact W0|exact Ks]]]. left. eauto.
  - right. destruct H as (cs & ck & k & shs & before & hello & shm & eem & fl & sfin & pre & es & dh & cevs0 & got & seen & rest & H). cbv zeta in H.
    destruct H as (Hc & Kk & Wt & _ & _ & _ & _ & _ & _ & _ & _ & Pu & Pd & _ & _ & Q1 & Q2). destruct (flight_head E k rest sfin) as (p & ts & Et). rewrite Et in Pd.
    destruct (Pc _ _ Pu) as (ru & Au). destruct (Psv _ _ Pd) as (rd & Ad).
    eexists. eexists. split; [|split; [eapply calls_reads; [exact Hc|exact (keys_reads _ _ Kk)|exact (proj1 Q1)|exact Ad|apply W1|exact Kc]|eapply calls_waiting; [exact Wt|exact (proj1 Q2)|exact Au|exact W0|exact Ks]]]. left. eauto.
  - right. destruct H as (k & l & cfin & r1 & d & items & H). cbv zeta in H. destruct H as (_ & Eo & _ & Wt & Q2 & _ & _ & Ah & _). rewrite L1 in Ah. cbn [concat app] in Ah. destruct (answer_head E k l cfin) as (p & ts & Et). rewrite Et in Ah.
    exists False. eexists. split; [|split; [eapply calls_complete; [exact (eo_complete _ _ _ Eo)|exact Kc|auto]|eapply calls_waiting; [exact Wt|exact (proj1 Q2)|exact Ah|left; eauto|exact Ks]]]. right. eauto.
  - left. destruct H as (s & iu & id & _ & (A & B & _) & _). split; [exact (eo_complete _ _ _ A)|exact (eo_complete _ _ _ B)].
Qed.

(** ** How long a handshake can be *)

Lemma events_count evs : List.length evs = (List.length (sent evs) + List.length (received evs))%nat.
Proof.
  induction evs as [|[m|m] l IH]; [reflexivity| |].
  - change (sent (Sent m :: l)) with (m :: sent l). change (received (Sent m :: l)) with (received l). cbn [List.length]. rewrite IH. lia.
  - change (sent (Received m :: l)) with (sent l). change (received (Received m :: l)) with (m :: received l). cbn [List.length]. rewrite IH. lia.
Qed.
Lemma talk_count a b ts : talk a b ts -> List.length (sent a) = (List.length (received b) + List.length (msgs ts))%nat.
Proof. intros (H & _). apply (f_equal (@List.length _)) in H. rewrite app_length, !map_length in H. exact H. Qed.
Lemma view_six ce se C S k ts s : csound ce C -> ssound se S -> c_hState C = Some s -> waiting S k -> talk ce se ts -> List.length (sent se) = 5%nat /\ List.length (received se) = 1%nat.
Proof.
  intros Sc Sd Hc Wt T. destruct (server_view Qc Qs E ccfg scfg cpsks spsks ok cp _ _ _ _ _ _ _ Sc Sd Hc Wt T) as (hello & tl & random & shares & hm & ms & _ & _ & -> & _ & Fl & _).
  destruct Fl as (q1 & q2 & q3 & q4 & q5 & q6 & q7 & q8 & q9 & q10 & a & b & c & d & e & -> & _). split; reflexivity.
Qed.
Lemma negotiated_one ce se C S n ts : csound ce C -> ssound se S -> c_hState S = Some (SNegotiated n) -> talk ce se ts -> exists hm, se = [Received hm].
Proof.
  intros Sc Sd Hs T. destruct (sound_path _ _ _ _ _ _ _ _ Sd Hs) as (w & Pa & _).
  destruct (server_history Qc Qs E ccfg scfg cpsks spsks cp msized shandler stls _ _ _ _ Pa eq_refl) as [_ [[_ Z]|(hm & tl & -> & H)]]; [discriminate|].
  destruct (talk_parts _ _ _ T) as (a & b & Es & F & _). change (received (Received hm :: tl)) with (hm :: received tl) in F. inversion F as [|hello ? l ? Sm F']; subst.
  destruct (c_hState C) as [s|] eqn:Hc.
  - destruct (client_began Qc Qs E ccfg scfg cpsks spsks ok cp _ _ _ Sc Hc) as (hello' & tl' & random & shares & -> & Hm). change (sent (Sent hello' :: tl')) with (hello' :: sent tl') in Es. injection Es as -> _.
    destruct (H random shares (hello_same _ _ _ _ _ _ _ Sm Hm) I) as [-> _]. eauto.
  - destruct Sc as [_ Pc]. unfold on_path in Pc. rewrite Hc in Pc. destruct Pc as [-> _]. discriminate.
Qed.
Lemma short_phase ce se t C S up down : csound ce C -> ssound se S -> phase Qs E scfg spsks ce se t C S up down ->
  c_complete C && c_complete S = false \/ (exists s, (c_hState C = Some s \/ c_hState S = Some s) /\ not_connected s) -> (List.length ce + List.length se <= 14)%nat.
Proof.
  intros Sc Sd Ph Nc.
  rewrite (events_count ce), (events_count se).
  destruct Ph as [[_ [H|[H|H]]]|[H|H]].
  - destruct H as (tsu & tsd & _ & _ & Tu & Td & _ & _ & _ & G). pose proof (talk_count _ _ _ Tu) as N1. pose proof (talk_count _ _ _ Td) as N2.
    assert ((List.length (msgs tsu) <= 1)%nat /\ (server_new S \/ exists n, c_hState S = Some (SNegotiated n))) as [L [Sn|(k & Sn)]].
    { destruct G as [(_ & Sn & -> & _)|(ws & _ & [(Sn & -> & _)|[(k & Sn & _ & _ & -> & _)|(Sn & -> & _)]])]; (split; [cbn; lia|]); [left; exact Sn|left; exact Sn|right; eauto|left; right; exact Sn]. }
    + pose proof (fresh Qc Qs E ccfg scfg cpsks spsks ok cp _ _ _ _ _ Sc Sd Sn Tu) as ->. cbn in *. lia.
    + destruct (negotiated_one _ _ _ _ _ _ Sc Sd Sn Tu) as (hm & ->). cbn in *. lia.
  - destruct H as (ws & k & shs & before & hello & shm & eem & fl & sfin & pre & es & dh & H). cbv zeta in H. destruct H as (Hc & Wt & _ & _ & _ & _ & Tu & Td & _).
    destruct (view_six _ _ _ _ _ _ _ Sc Sd Hc Wt Tu) as [V1 V2]. apply talk_count in Tu, Td. change (msgs []) with (@nil (byte * bytes)) in Tu. cbn [List.length] in Tu. lia.
  - destruct H as (cs & ck & k & shs & before & hello & shm & eem & fl & sfin & pre & es & dh & cevs0 & got & seen & rest & H). cbv zeta in H.
    destruct H as (Hc & Kk & Wt & _ & _ & _ & _ & _ & _ & _ & _ & _ & _ & Tu & Td & _).
    destruct (view_six _ _ _ _ _ _ _ Sc Sd Hc Wt Tu) as [V1 V2]. apply talk_count in Tu, Td. change (msgs []) with (@nil (byte * bytes)) in Tu. cbn [List.length] in Tu. lia.
  - destruct H as (k & l & cfin & r1 & d & items & H). cbv zeta in H. destruct H as (_ & Eo & _ & Wt & _ & _ & _ & _ & _ & _ & _ & _ & _ & Tu & Td & _).
    apply eo_connected in Eo. unfold is_connected in Eo. destruct (c_hState C) as [s|] eqn:Hc; [|discriminate]. destruct s; try discriminate.
    destruct (view_six _ _ _ _ _ _ _ Sc Sd Hc Wt Tu) as [V1 V2]. destruct (finished_view Qc Qs E ccfg scfg cpsks spsks ok cp _ _ _ _ _ _ _ Sc Sd Hc Wt Tu Td) as (h1 & h2 & Es & _).
    apply talk_count in Td. rewrite Es. cbn [List.length]. lia.
  - exfalso. destruct Nc as [Nc|(s & Hs & Nc)].
    + destruct H as (s & iu & id & _ & (A & B & _) & _). apply eo_complete in A, B. cbn [n_client n_server] in A, B. rewrite A, B in Nc. discriminate.
    + apply linked_hstates in H. destruct Hs as [Hs|Hs]; [exact (connected_not _ _ (proj1 H) Hs Nc)|exact (connected_not _ _ (proj2 H) Hs Nc)].
Qed.
Lemma short ce se t n : session Qc Qs E ccfg scfg cpsks spsks ce se t n -> c_complete (n_client n) && c_complete (n_server n) = false -> (List.length ce + List.length se <= 14)%nat.
Proof. intros Ss Nc. apply (session_joined _ _ _ _ _ _ _ ok) in Ss. destruct Ss as (Sc & Sd & Ph & _). eapply short_phase; eauto. Qed.
End Round.
