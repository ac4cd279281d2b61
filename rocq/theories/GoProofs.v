(** Two compatible ends can always be called again. *)
From Verif Require Import Base Syntax Frame FrameProofs Record RecordSpec RecordProofs RecordProofs2 HandshakeProofs Timer Handshake DtlsProofs Crypto CryptoSpec CryptoProofs Messages MessageProofs MessageProofs3 Pki Negotiation NegotiationProofs Machine MachineProofs Cookie Client Server StepProofs Conn ConnSpec ConnProofs EarlyProofs RunSpec RunProofs TraceProofs SessionSpec SessionProofs HelloProofs ClientRun ClientSession ServerRun ServerSession AgreeSpec AgreeProofs JointSpec ChannelSpec ChannelProofs WireProofs StillProofs PipeProofs MadeProofs TurnProofs HalfProofs JointHello TicketProofs JointProofs CompleteSpec ForwardProofs CompleteProofs CompleteRun CompleteJoint CrashSpec PlaySpec StallProofs LiveProofs.
Import FrameProofs.

(** ** More fuel *)

Lemma readFrame_more fuel : forall F now x x1 r, readFrame_loop fuel now x = (x1, r) -> r <> Fuel -> (fuel <= F)%nat -> readFrame_loop F now x = (x1, r).
Proof.
  induction fuel as [|fuel IH]; intros F now x x1 r H N L; cbn [readFrame_loop] in H; [congruence|]. destruct F as [|F]; [lia|]. cbn [readFrame_loop].
  assert (forall x2, (let h := x_in x2 in
        let '(f, r) := process (handshakeFraming (hl_datagram h)) (hl_frame h) in
        let x3 := set_in x2 (set_frame h f) in
        match r with
        | Err e => if negb (hl_nonblocking (x_in x)) && is_wb e then readFrame_loop fuel now x3 else (x3, Err e)
        | _ => (x3, r)
        end) = (x1, r) -> (let h := x_in x2 in
        let '(f, r) := process (handshakeFraming (hl_datagram h)) (hl_frame h) in
        let x3 := set_in x2 (set_frame h f) in
        match r with
        | Err e => if negb (hl_nonblocking (x_in x)) && is_wb e then readFrame_loop F now x3 else (x3, Err e)
        | _ => (x3, r)
        end) = (x1, r)) as St.
  { intros x2. cbv zeta. destruct (process (handshakeFraming (hl_datagram (x_in x2))) (hl_frame (x_in x2))) as [f q]. destruct q as [p|e| |]; try (intros K; exact K). destruct (negb _ && _); [|auto]. intros K. apply IH; auto. lia. }
  destruct (_ <? _)%nat; [|apply St; exact H]. destruct (hl_readRecord now x) as [x2 q]. destruct q as [u|e| |]; [apply St; exact H| |exact H|exact H]. destruct (negb _ && _); [apply St; exact H|exact H].
Qed.
Lemma message_more fuel F now x x1 r : readMessage fuel now x = (x1, r) -> r <> Fuel -> (fuel <= F)%nat -> readMessage F now x = (x1, r).
Proof.
  unfold readMessage. intros H N L. destruct (checkMessageAvailable x) as [x2 [[m|]|e| |]]; cbn [sbind] in *; try exact H.
  destruct (readFrame_loop fuel now x2) as [x3 q] eqn:R. destruct (readFrame_loop F now x2) as [x4 q'] eqn:R'.
  assert (q <> Fuel) as Nq by (intros ->; cbn [sbind] in H; injection H as _ <-; congruence). rewrite (readFrame_more _ _ _ _ _ _ R Nq L) in R'. injection R' as <- <-. exact H.
Qed.
Lemma read_loop_more fuel : forall inner F G now x x1 r, hr_read_loop fuel inner now x = (x1, r) -> r <> Fuel -> (fuel <= F)%nat -> (inner <= G)%nat -> hr_read_loop F G now x = (x1, r).
Proof.
  induction fuel as [|fuel IH]; intros inner F G now x x1 r H N L L'; cbn [hr_read_loop] in H; [congruence|]. destruct F as [|F]; [lia|]. cbn [hr_read_loop].
  destruct (readMessage inner now x) as [x2 q] eqn:R. destruct (readMessage G now x) as [x3 q'] eqn:R'.
  assert (q <> Fuel) as Nq by (intros ->; injection H as _ <-; congruence). rewrite (message_more _ _ _ _ _ _ R Nq L') in R'. injection R' as <- <-.
  destruct q as [[m|]|e| |]; auto. eapply IH; eauto. lia.
Qed.
Lemma read_more fuel F o w w1 r : hr_read fuel o w = (w1, r) -> r <> Fuel -> (fuel <= F)%nat -> hr_read F o w = (w1, r).
Proof.
  unfold hr_read. intros H N L. destruct (hr_read_loop fuel fuel (o_ms o) (w_ctx w)) as [x q] eqn:R. injection H as <- ->. now rewrite (read_loop_more _ _ _ _ _ _ _ _ R N L L).
Qed.

(** ** Nothing to read *)

Lemma record_quiet now x tr r' x1 rr : ahead x tr [] r' [] -> hl_readRecord now x = (x1, rr) -> rr = Err WouldBlock /\ ahead x1 tr [] r' [] /\ hl_nonblocking (x_in x1) = hl_nonblocking (x_in x).
Proof.
  intros Ah H. pose proof (ahead_quiet _ _ _ Ah) as (Pq & _). assert (first_frame (handshakeFraming false) (pending (hl_frame (x_in x))) = None) as Hf by (rewrite Pq; reflexivity).
  destruct (record_ahead _ _ _ _ _ _ _ _ Ah (or_intror (conj eq_refl eq_refl)) Hf H) as (Hr & D).
  assert (hl_nonblocking (x_in x1) = hl_nonblocking (x_in x)) as Nb by (destruct Hr as (l & f & n & ->); reflexivity).
  assert (rr = Err WouldBlock) as ->; [|destruct D as [D|[_ D]]; [discriminate|auto]]. clear D Hr Nb.
  pose proof Ah as ((D & Q & (Hc & F & Er) & Fr & Rok) & Hd).
  unfold hl_readRecord in H. rewrite D in H. unfold readRecordE, nextRecord in H. rewrite Hc in H.
  destruct (nextFrame_spec _ (l_in (hl_conn (x_in x))) (l_frame (hl_conn (x_in x))) (recordFraming_lawful (r_datagram (l_core (hl_conn (x_in x))))) F Er)
    as (c' & f' & q & E1 & F' & N' & _ & HH).
  rewrite E1 in H. pose proof Rok as (Dg & Dr & Cr). rewrite Dg in *. fold (rl_data (hl_conn (x_in x))) in HH. destruct HH as [HH|(-> & Hp & _)].
  - apply first_frame_app with (more := tr) in HH. apply heads_done in Hd. destruct Hd as (_ & _ & Hd). rewrite Hd in HH. discriminate HH.
  - cbv beta iota zeta in H. now injection H as _ <-.
Qed.
Lemma frame_quiet fuel : forall now x tr r' x1 rr, ahead x tr [] r' [] -> readFrame_loop (Datatypes.S fuel) now x = (x1, rr) -> if hl_nonblocking (x_in x) then rr = Err WouldBlock else rr = Fuel.
Proof.
  induction fuel as [|fuel IH]; intros now x tr r' x1 rr Ah H; cbn [readFrame_loop] in H.
  - assert (forall x2 : hctx, ahead x2 tr [] r' [] -> (let h := x_in x2 in
        let '(f, r) := process (handshakeFraming (hl_datagram h)) (hl_frame h) in
        let x3 := set_in x2 (set_frame h f) in
        match r with
        | Err e => if negb (hl_nonblocking (x_in x)) && is_wb e then (x3, Fuel) else (x3, Err e)
        | _ => (x3, r)
        end) = (x1, rr) -> if hl_nonblocking (x_in x) then rr = Err WouldBlock else rr = Fuel) as St.
    { intros x2 A2 K. pose proof (ahead_quiet _ _ _ A2) as (Pq & _). pose proof A2 as ((D & _ & _ & Fr & _) & _). cbv zeta in K. rewrite D in K.
      pose proof (process_spec _ _ (handshakeFraming_lawful false) Fr) as P. rewrite Pq in P. cbn [first_frame] in P. destruct P as (f & P & _). rewrite P in K. destruct (hl_nonblocking (x_in x)); cbn in K; now injection K as _ <-. }
    destruct (_ <? _)%nat; [|exact (St x Ah H)]. destruct (hl_readRecord now x) as [x2 q] eqn:R. destruct (record_quiet _ _ _ _ _ _ Ah R) as (-> & A2 & _).
    destruct (hl_nonblocking (x_in x)) eqn:Nb; cbn in H; [now injection H as _ <-|]. exact (St x2 A2 H).
  - assert (forall x2 : hctx, ahead x2 tr [] r' [] -> hl_nonblocking (x_in x2) = hl_nonblocking (x_in x) -> (let h := x_in x2 in
        let '(f, r) := process (handshakeFraming (hl_datagram h)) (hl_frame h) in
        let x3 := set_in x2 (set_frame h f) in
        match r with
        | Err e => if negb (hl_nonblocking (x_in x)) && is_wb e then readFrame_loop (Datatypes.S fuel) now x3 else (x3, Err e)
        | _ => (x3, r)
        end) = (x1, rr) -> if hl_nonblocking (x_in x) then rr = Err WouldBlock else rr = Fuel) as St.
    { intros x2 A2 N2 K. pose proof (ahead_quiet _ _ _ A2) as (Pq & _). pose proof A2 as ((D & Q & Wf & Fr & Rok) & Hd). cbv zeta in K. rewrite D in K.
      pose proof (process_spec _ _ (handshakeFraming_lawful false) Fr) as P. rewrite Pq in P. cbn [first_frame] in P. destruct P as (f & P & F1 & F2 & _). rewrite P in K.
      destruct (hl_nonblocking (x_in x)); cbn [negb andb] in K; [now injection K as _ <-|]. change (is_wb WouldBlock) with true in K. cbv iota in K.
      assert (A3 : ahead (set_in x2 (set_frame (x_in x2) f)) tr [] r' []).
      { split; [split; [exact D|split; [exact Q|split; [exact Wf|split; [exact F1|exact Rok]]]]|]. cbn [x_in set_in set_frame hl_conn hl_frame]. rewrite F2. rewrite Pq in Hd. exact Hd. }
      pose proof (IH _ _ _ _ _ _ A3 K) as G. cbn [x_in set_in set_frame hl_nonblocking] in G. rewrite N2 in G. exact G. }
    destruct (_ <? _)%nat; [|exact (St x Ah eq_refl H)]. destruct (hl_readRecord now x) as [x2 q] eqn:R. destruct (record_quiet _ _ _ _ _ _ Ah R) as (-> & A2 & N2).
    destruct (hl_nonblocking (x_in x)) eqn:Nb; cbn [negb andb] in H; [now injection H as _ <-|]. change (is_wb WouldBlock) with true in H. cbv iota in H. exact (St x2 A2 N2 H).
Qed.
Lemma read_quiet fuel o w tr r' : ahead (w_ctx w) tr [] r' [] -> snd (hr_read (Datatypes.S fuel) o w) = if hl_nonblocking (x_in (w_ctx w)) then Err WouldBlock else Fuel.
Proof.
  intros Ah. unfold hr_read. cbn [hr_read_loop]. unfold readMessage. pose proof Ah as ((_ & Q & _) & _). rewrite check_empty, set_queue_same, set_in_same by exact Q. cbn [sbind].
  destruct (readFrame_loop (Datatypes.S fuel) (o_ms o) (w_ctx w)) as [x1 rr] eqn:R. pose proof (frame_quiet _ _ _ _ _ _ _ Ah R) as G. destruct (hl_nonblocking _); subst rr; reflexivity.
Qed.

(** ** Turns *)

Lemma reads_too s : reads s -> reads_message s = true.
Proof. destruct s; cbn; auto; contradiction. Qed.
Lemma turn_goes E o c s : c_hState c = Some s -> (forall fuel, turn_ok E fuel o c s []) -> stalled c \/ exists F0 c1 q, q <> Fuel /\ forall F, (F0 <= F)%nat -> handshake_turn E F o c s = (c1, q).
Proof.
  intros Hs Ok. destruct (Ok 0%nat) as [[Tc _] Fa]. destruct Fa as [(Rd & ts & r' & d' & Ah & Wt)|Fx].
  - assert (stalled c \/ exists F0, snd (hr_read F0 o (c_world c)) <> Fuel) as [St|(F0 & Nf)].
    { destruct Wt as [(m & ts' & ->)|[-> ->]].
      - right. exists (Datatypes.S (stock (c_ctx c))). destruct (hr_read (Datatypes.S (stock (c_ctx c))) o (c_world c)) as [w1 rr] eqn:R. pose proof (read_gets _ _ _ _ _ _ _ _ _ Ah R) as G. cbn [snd]. intros ->.
        change (w_ctx (c_world c)) with (c_ctx c) in G. lia.
      - destruct (hl_nonblocking (x_in (c_ctx c))) eqn:Nb.
        + right. exists 1%nat. rewrite (read_quiet 0 o (c_world c) [] r' Ah). change (w_ctx (c_world c)) with (c_ctx c). rewrite Nb. discriminate.
        + left. exists s. split; [exact Hs|]. split; [now apply reads_too|]. exists o. intros [|fuel]; [reflexivity|]. rewrite (read_quiet fuel o (c_world c) [] r' Ah). change (w_ctx (c_world c)) with (c_ctx c). now rewrite Nb. }
    + now left.
    + right. destruct (handshake_turn E F0 o c s) as [c1 q] eqn:T. exists F0, c1, q. split.
      * intros ->. destruct (Ok F0) as [[K _] _]. rewrite T in K. cbn [fst snd turn_calm] in K. destruct K as [_ K]. contradiction.
      * intros F L. rewrite <- T. destruct (hr_read F0 o (c_world c)) as [w1 rr] eqn:R. cbn [snd] in Nf. unfold handshake_turn. rewrite !next_step by exact Rd. now rewrite R, (read_more _ _ _ _ _ _ R Nf L).
  - right. destruct (handshake_turn E 0 o c s) as [c1 q] eqn:T. exists 0%nat, c1, q. split.
    + intros ->. cbn [fst snd turn_calm] in Tc. destruct Tc as [Rd _]. destruct Fx as [(n & ->)|(k & ->)]; exact Rd.
    + intros F _. rewrite <- T. destruct Fx as [(n & ->)|(k & ->)]; reflexivity.
Qed.
(** A turn adds to the events, or goes on without. *)
Lemma turn_gains E fuel o c s c1 s1 retry tr : c_hState c = Some s -> faces c s tr -> handshake_turn E fuel o c s = (c1, Ok (s1, retry)) -> turn_events E fuel o c s <> [] \/ (bit c < bit c1)%nat.
Proof.
  intros Hs [(Rd & ts & r' & d' & Ah & Wt)|[(n & ->)|(k & ->)]] T.
  - left. exact (turn_empty _ _ _ _ _ _ _ _ _ _ _ _ Rd Ah Wt T).
  - left. exact (negotiated_events E _ _ _ _ _ _ _ T).
  - right. pose proof (turn_hstate _ _ _ _ _ _ _ _ T) as H1. apply turn_done in T. destruct T as (w & acts & c2 & N & _ & _). cbn [next] in N. apply server_wait_flight2_ok in N. destruct N as (_ & _ & _ & Es).
    unfold bit. rewrite Hs, H1. destruct (p_usingClientAuth (sk_params k)); subst s1; lia.
Qed.

(** ** Calls *)

(** A call with enough fuel: it comes back, waits in a read, or has no record numbers left. *)
Definition goes_on (c' : conn) (r : res unit) (blk : Prop) : Prop := ended r \/ (r = Panic /\ (worn_out (c_in c') \/ worn_out (c_out c'))) \/ (blk /\ stalled c').
Section Go.
Variables (Q : oracle -> Prop) (E : env) (J : list event -> conn -> Prop) (o : oracle).
Hypothesis turn : forall fuel evs o c s c' r, Q o -> J evs c -> c_hState c = Some s -> not_connected s -> handshake_turn E fuel o c s = (c', r) -> returned r ->
  small (turn_events E fuel o c s) -> J (evs ++ turn_events E fuel o c s) c'.
Hypothesis setup : forall evs o c c', Q o -> J evs c -> c_hState c = None -> handshakeSetup E o c = (c', Ok tt) -> small (setup_events E o c) -> J (evs ++ setup_events E o c) c'.
Hypothesis turn_good : forall fuel evs o c s, Q o -> J evs c -> c_hState c = Some s -> not_connected s -> turn_ok E fuel o c s [].
Hypothesis setup_good : forall evs o c, Q o -> J evs c -> c_hState c = None -> (forall c' q, handshakeSetup E o c = (c', q) -> calmly c' q) /\ small (setup_events E o c).
Hypothesis bound : forall evs c s, J evs c -> c_hState c = Some s -> not_connected s -> (List.length evs <= 14)%nat.
Hypothesis Qo : Q o.

Lemma loop_goes k : forall evs c s, J evs c -> c_hState c = Some s -> (2 * (15 - List.length evs) + (1 - bit c) <= k)%nat ->
  exists F0 os c' r, Forall Q os /\ forall F, (F0 <= F)%nat -> handshake_loop E F os c s = (c', r) /\ goes_on c' r (loop_blocked E F os c s).
Proof.
  induction k as [|k IH]; intros evs c s H Hs L; (destruct (not_connected_cases s) as [Nc|(kk & ->)]; [|exists 0%nat, [], c, (Ok tt); split; [constructor|]; intros F _; split; [reflexivity|]; left; exact I]).
  { pose proof (bound _ _ _ H Hs Nc). lia. }
  pose proof (bound _ _ _ H Hs Nc) as B.
  destruct (turn_goes E o c s Hs (fun fuel => turn_good fuel _ _ _ _ Qo H Hs Nc)) as [St|(F1 & c1 & q & Nf & Tu)].
  { exists 0%nat, [], c, Fuel. split; [constructor|]. intros F _. split; [destruct s; try reflexivity; contradiction|]. right. right. split; [exact I|exact St]. }
  pose proof (Tu F1 (le_n _)) as T. destruct (turn_good F1 _ _ _ _ Qo H Hs Nc) as [[Tc Sm] Fa]. rewrite T in Tc. cbn [fst snd] in Tc.
  assert (forall F os, handshake_loop E F (o :: os) c s = (call c, '(s, retry) <- handshake_turn E F o c s;
      if cf_nonBlocking (c_cfg c) then (c, if retry : bool then alert AlertStatelessRetry else Ok tt) else handshake_loop E F os c s)) as El by (intros F os; destruct s; try reflexivity; contradiction).
  destruct q as [[s1 retry]|e| |]; cbn [turn_calm] in Tc.
  - subst retry. pose proof (turn _ _ _ _ _ _ _ Qo H Hs Nc T I Sm) as J1. pose proof (turn_hstate _ _ _ _ _ _ _ _ T) as H1. destruct (cf_nonBlocking (c_cfg c1)) eqn:Nb.
    + exists F1, [o], c1, (Ok tt). split; [constructor; [exact Qo|constructor]|]. intros F LF. rewrite El, (Tu F LF). cbn [sbind]. rewrite Nb. split; [reflexivity|]. left. exact I.
    + destruct (IH _ _ _ J1 H1) as (F2 & os & c' & r & Qs & G).
      { rewrite app_length. destruct (turn_gains _ _ _ _ _ _ _ _ _ Hs Fa T) as [Ne|Bi]; [destruct (turn_events E F1 o c s); [congruence|]; cbn [List.length]; lia|]. assert (bit c1 <= 1)%nat by (unfold bit; destruct (c_hState c1) as [[]|]; lia). lia. }
      exists (Nat.max F1 F2), (o :: os), c', r. split; [now constructor|]. intros F LF. rewrite El. cbn [loop_blocked]. rewrite (Tu F) by lia. cbn [sbind]. rewrite Nb. apply G. lia.
  - exists F1, [o], c1, (Err e). split; [constructor; [exact Qo|constructor]|]. intros F LF. rewrite El, (Tu F LF). cbn [sbind]. split; [reflexivity|]. left. exact I.
  - exists F1, [o], c1, Panic. split; [constructor; [exact Qo|constructor]|]. intros F LF. rewrite El, (Tu F LF). cbn [sbind]. split; [reflexivity|]. right. left. auto.
  - congruence.
Qed.
Lemma call_goes evs c : J evs c -> exists fuel os c' r, Forall Q os /\ handshake E fuel os c = (c', r) /\ goes_on c' r (blocked E fuel os c).
Proof.
  intros H. unfold handshake, blocked. destruct (c_complete c).
  { exists 0%nat, [], c, (Ok tt). split; [constructor|]. split; [reflexivity|]. left. exact I. }
  destruct (c_hState c) as [s|] eqn:Hs.
  - destruct (loop_goes _ _ _ _ H Hs (le_n _)) as (F0 & os & c' & r & Qs & G). exists F0, os, c', r. split; [exact Qs|]. exact (G F0 (le_n _)).
  - destruct (setup_good _ _ _ Qo H Hs) as [Cm Sm]. destruct (handshakeSetup E o c) as [c1 q] eqn:Su. specialize (Cm _ _ eq_refl). destruct q as [[]|e| |]; cbn [calmly] in Cm; try contradiction.
    + pose proof (setup _ _ _ _ Qo H Hs Su Sm) as J1. destruct (setup_hstate _ _ _ _ Su) as [s H1]. destruct (c_isClient c1 && cf_nonBlocking (c_cfg c1)) eqn:Nb.
      * exists 0%nat, [o], c1, (Ok tt). split; [constructor; [exact Qo|constructor]|]. rewrite Su. cbn [sbind]. rewrite Nb. split; [reflexivity|]. left. exact I.
      * destruct (loop_goes _ _ _ _ J1 H1 (le_n _)) as (F0 & os & c' & r & Qs & G). exists F0, (o :: os), c', r. split; [now constructor|]. rewrite Su. cbn [sbind]. rewrite Nb, H1. exact (G F0 (le_n _)).
    + exists 0%nat, [o], c1, Panic. split; [constructor; [exact Qo|constructor]|]. rewrite Su. cbn [sbind]. split; [reflexivity|]. right. left. auto.
Qed.
End Go.

Section Ends.
Variables (Qc Qs : oracle -> Prop) (E : env) (ccfg scfg : config) (cpsks spsks : cache).
Hypothesis ok : joint_ok Qc Qs E ccfg scfg cpsks spsks.
Hypothesis cp : compatible Qc Qs E ccfg scfg cpsks.
Notation csound := (sound Qc E ccfg cpsks true).
Notation ssound := (sound Qs E scfg spsks false).
Theorem client_goes ce se t n o : session Qc Qs E ccfg scfg cpsks spsks ce se t n -> n_down n = [] -> Qc o ->
  exists fuel os c' r, Forall Qc os /\ handshake E fuel os (n_client n) = (c', r) /\ goes_on c' r (blocked E fuel os (n_client n)).
Proof.
  intros Ss Nd Qo. apply (session_joined _ _ _ _ _ _ _ ok) in Ss. destruct Ss as (Sc & Sd & Ph & L1 & L2).
  apply (call_goes Qc E (fun evs c => csound evs c /\ phase Qs E scfg spsks evs se t c (n_server n) (n_up n) (n_down n)) o) with (evs := ce); auto.
  - intros fuel evs o0 c s c' r0 Q0 [J1 J2] Hs Nc Tn Rt Sm0. assert (csound (evs ++ turn_events E fuel o0 c s) c') as J3 by (eapply sound_turn; eauto). split; [exact J3|]. eapply phase_client_turn; eauto.
  - intros evs o0 c c' Q0 [J1 J2] Hs Tn Sm0. split; [eapply sound_setup; eauto|]. eapply phase_client_setup; eauto.
  - intros fuel evs o0 c s Q0 [J1 J2] Hs Nc. pose proof (phase_client_good Qc Qs E ccfg scfg cpsks spsks ok cp _ _ _ _ _ _ _ fuel o0 s Q0 J1 Sd J2 Hs Nc) as G. rewrite Nd, L2 in G. exact G.
  - intros evs o0 c Q0 [J1 J2] Hs. eapply client_setup_good; eauto.
  - intros evs c s [J1 J2] Hs Nc. assert (List.length evs + List.length se <= 14)%nat; [|lia]. eapply (short_phase Qc Qs E ccfg scfg cpsks spsks ok cp); eauto 6.
Qed.
Theorem server_goes ce se t n o : session Qc Qs E ccfg scfg cpsks spsks ce se t n -> n_up n = [] -> Qs o ->
  exists fuel os c' r, Forall Qs os /\ handshake E fuel os (n_server n) = (c', r) /\ goes_on c' r (blocked E fuel os (n_server n)).
Proof.
  intros Ss Nd Qo. apply (session_joined _ _ _ _ _ _ _ ok) in Ss. destruct Ss as (Sc & Sd & Ph & L1 & L2).
  apply (call_goes Qs E (fun evs c => ssound evs c /\ phase Qs E scfg spsks ce evs t (n_client n) c (n_up n) (n_down n)) o) with (evs := se); auto.
  - intros fuel evs o0 c s c' r0 Q0 [J1 J2] Hs Nc Tn Rt Sm0. assert (ssound (evs ++ turn_events E fuel o0 c s) c') as J3 by (eapply sound_turn; eauto). split; [exact J3|]. eapply phase_server_turn; eauto.
  - intros evs o0 c c' Q0 [J1 J2] Hs Tn Sm0. split; [eapply sound_setup; eauto|]. eapply phase_server_setup; eauto.
  - intros fuel evs o0 c s Q0 [J1 J2] Hs Nc. pose proof (phase_server_good Qc Qs E ccfg scfg cpsks spsks ok cp _ _ _ _ _ _ _ fuel o0 s Q0 Sc J1 J2 Hs Nc) as G. rewrite Nd, L1 in G. exact G.
  - intros evs o0 c Q0 [J1 J2] Hs. eapply setup_server; eauto.
  - intros evs c s [J1 J2] Hs Nc. assert (List.length ce + List.length evs <= 14)%nat; [|lia]. eapply (short_phase Qc Qs E ccfg scfg cpsks spsks ok cp); eauto 6.
Qed.
End Ends.
