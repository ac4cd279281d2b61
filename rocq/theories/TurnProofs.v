(** One turn of a handshake over a stream: what it takes from the other end and what it puts out. *)
From Verif Require Import Base Syntax Frame FrameProofs Record RecordSpec RecordProofs RecordProofs2 HandshakeProofs Timer Handshake Crypto CryptoSpec Messages MessageProofs MessageProofs3 Pki Negotiation NegotiationProofs Machine MachineProofs Cookie Client Server StepProofs Conn ConnSpec ConnProofs EarlyProofs RunSpec RunProofs HelloProofs AgreeSpec AgreeProofs JointSpec ChannelSpec ChannelProofs WireProofs StillProofs PipeProofs MadeProofs.
Import FrameProofs.

(** ** Steps that read a message *)

Definition reads (s : hstate) : Prop :=
  match s with CWaitSH _ | CWaitEE _ | CWaitCertCR _ | CWaitCert _ _ | CWaitCV _ _ _ | CWaitFinished _ _ _ _ _ | SStart | SWaitCert _ | SWaitCV _ _ | SWaitFinished _ _ => True | _ => False end.
(** What is done with the message. *)
Definition step_of (P : prims) (X : pki) (o : oracle) (w : world) (s : hstate) (hm : hmsg) : world * res outcome :=
  match s with
  | CWaitSH st => client_wait_sh P o w st hm
  | CWaitEE k => client_wait_ee P o w k hm
  | CWaitCertCR k => client_wait_cert_cr X w k hm
  | CWaitCert k cr => client_wait_cert X w k cr hm
  | CWaitCV k cert cr => client_wait_cv P X o w k cert cr hm
  | CWaitFinished k certs cr peer chains => client_wait_finished P X o w k certs cr peer chains hm
  | SStart => server_start P X o w hm
  | SWaitCert k => server_wait_cert X w k hm
  | SWaitCV k cert => server_wait_cv P X o w k cert hm
  | SWaitFinished k peer => server_wait_finished P w k peer hm
  | _ => (w, Panic)
  end.
Lemma next_step P X o fuel w s : reads s -> next P X o fuel w s = (call w, hm <- hr_read fuel o w; step_of P X o w s hm).
Proof. destruct s; cbn [reads]; try contradiction; reflexivity. Qed.
Lemma firm_step P X o w s hm : firm (step_of P X o w s hm).
Proof.
  destruct s; cbn [step_of]; try (apply firm_pair, solid_panic); auto using firm_client_wait_sh, firm_client_wait_ee, firm_client_wait_cert_cr, firm_client_wait_cert, firm_client_wait_cv,
    firm_client_wait_finished, firm_server_start, firm_server_wait_cert, firm_server_wait_cv, firm_server_wait_finished.
Qed.
Lemma st_step w0 P X o w s hm : wstill w0 w -> all (wstill w0) (step_of P X o w s hm).
Proof.
  intros H. destruct s; cbn [step_of]; try exact H; auto using st_client_wait_sh, st_client_wait_ee, st_client_wait_cert_cr, st_client_wait_cert, st_client_wait_cv,
    st_client_wait_finished, st_server_start, st_server_wait_cert, st_server_wait_cv, st_server_wait_finished.
Qed.
Lemma read_events fuel o w s w1 hm : reads s -> hr_read fuel o w = (w1, Ok hm) -> read_by fuel o w s = [Received hm].
Proof. intros R H. unfold read_by, got. rewrite H. destruct s; try contradiction; reflexivity. Qed.

(** ** Turns *)

(** The end of a turn: the new state, and what is done on entering the last one. *)
Definition turned (E : env) (o : oracle) (c1 : conn) (s' : hstate) (c' : conn) : Prop :=
  (not_connected s' /\ c' = set_hState c1 s') \/ exists k, s' = Connected k /\ on_connected E o (set_hState c1 s') k = (c', Ok tt).
Lemma turn_done E fuel o c s c' s' retry : handshake_turn E fuel o c s = (c', Ok (s', retry)) ->
  exists w acts c1, next (v_prims E) (v_pki E) o fuel (c_world c) s = (w, Ok (s', acts, retry)) /\ takeActions E (o_ms o) (set_world c w) acts = (c1, Ok tt) /\ turned E o c1 s' c'.
Proof.
  intros T. apply turn_cases in T. destruct T as (w & rn & N & [[[] _]|(s1 & acts & rt & c1 & -> & Ta & D)]).
  exists w, acts, c1. destruct D as [(Nc & -> & D)|(k & r1 & -> & D & Dr)].
  - injection D as -> ->. split; [exact N|]. split; [exact Ta|]. now left.
  - destruct r1 as [[]|e| |]; try discriminate. injection Dr as -> ->. split; [exact N|]. split; [exact Ta|]. right. eauto.
Qed.
Lemma alert_solid {A} (r : res A) n : n = 254 \/ n = 253 -> solid r -> r = Err (EAlert n) -> False.
Proof. intros Hn [Ha Hb] ->. destruct Hn as [->| ->]; auto. Qed.
Lemma turn_wait E fuel o c s c' n : n = 254 \/ n = 253 -> handshake_turn E fuel o c s = (c', Err (EAlert n)) -> hl_datagram (x_in (c_ctx c')) = false ->
  (forall w, next (v_prims E) (v_pki E) o fuel (c_world c) s = (w, Err (EAlert 254)) -> hl_datagram (x_in (w_ctx w)) = false) ->
  exists w, next (v_prims E) (v_pki E) o fuel (c_world c) s = (w, Err (EAlert n)) /\ c' = set_world c w.
Proof.
  intros Hn T Dc Dw. revert T. unfold handshake_turn. destruct (next _ _ _ _ _ _) as [w rn] eqn:N.
  destruct rn as [[[s' acts] retry]|e| |]; try discriminate.
  - destruct (takeActions _ _ _ _) as [c1 [u|e| |]] eqn:Ta; try discriminate.
    + set (c2 := set_hState c1 s'). destruct s'; cbn [sbind]; try discriminate. destruct (on_connected E o c2 c0) as [c3 r3] eqn:Oc. apply on_connected_solid in Oc.
      destruct r3 as [u'|e| |]; cbn [sbind]; try discriminate. intros [= <- ->]. exfalso. eapply alert_solid; [exact Hn|exact Oc|reflexivity].
    + apply actions_alert in Ta. destruct Ta as (m & -> & L). intros F. exfalso. pose proof (fail_alert_solid _ _ _ _ F L) as Q'. eapply alert_solid; [exact Hn|exact Q'|reflexivity].
  - destruct e as [a| |]; try discriminate. destruct (N.eqb_spec a AlertWouldBlock) as [->|Na].
    + specialize (Dw w eq_refl). change (c_ctx (set_world c w)) with (w_ctx w). rewrite Dw. intros [= <- <-]. eauto.
    + destruct (a =? AlertCloseNotify); [intros F; exfalso; pose proof (fail_alert_solid _ _ _ _ F eq_refl) as Q'; eapply alert_solid; [exact Hn|exact Q'|reflexivity]|].
      intros [= <- ->]. eauto.
Qed.

(** A turn that reads: it waits, or takes the message that is ahead of it. *)
Lemma turn_reads E fuel o c s c' r tr ts r' d' : reads s -> ahead (c_ctx c) tr ts r' d' -> waits ts d' -> handshake_turn E fuel o c s = (c', r) ->
  match r with Ok _ => True | Err e => exists n, e = EAlert n /\ (n = 254 \/ n = 253) | _ => False end ->
  (exists e x1, r = Err e /\ c' = upd_ctx c x1 /\ has_read (c_ctx c) x1 /\ ahead x1 tr ts r' d' /\ turn_events E fuel o c s = []) \/
  (exists m ts' x1 w acts s' retry c1, ts = M m :: ts' /\ has_read (c_ctx c) x1 /\ ahead x1 tr ts' r' d' /\ r = Ok (s', retry) /\
     let hm := mkHm (fst m) 0 (snd m) false 0 (len (snd m)) None in
     step_of (v_prims E) (v_pki E) o (set_ctx (c_world c) x1) s hm = (w, Ok (s', acts, retry)) /\ next (v_prims E) (v_pki E) o fuel (c_world c) s = (w, Ok (s', acts, retry)) /\
     takeActions E (o_ms o) (set_world c w) acts = (c1, Ok tt) /\ turned E o c1 s' c' /\
     turn_events E fuel o c s = Received hm :: map Sent (sent_of acts)).
Proof.
  intros Rd Ah Wt T Fr. destruct r as [[s' retry]|e| |]; try contradiction.
  - right. apply turn_done in T. destruct T as (w & acts & c1 & N & Ta & Td). pose proof N as N0. rewrite next_step in N by exact Rd.
    destruct (hr_read fuel o (c_world c)) as [w1 rr] eqn:R. destruct (read_ahead _ _ _ _ _ _ _ _ _ Ah Wt R) as (x1 & -> & Hr & Rr).
    destruct rr as [hm|e| |]; cbn [sbind] in N; try discriminate. destruct Rr as (m & ts' & -> & -> & A1).
    exists m, ts', x1, w, acts, s', retry, c1. split; [reflexivity|]. split; [exact Hr|]. split; [exact A1|]. split; [reflexivity|]. cbv zeta.
    split; [exact N|]. split; [exact N0|]. split; [exact Ta|]. split; [exact Td|]. unfold turn_events. rewrite N0. cbn [snd]. rewrite (read_events _ _ _ _ _ _ Rd R), queued_sent. reflexivity.
  - left. destruct Fr as (n & -> & Hn).
    assert (forall w n, n = 254 \/ n = 253 -> next (v_prims E) (v_pki E) o fuel (c_world c) s = (w, Err (EAlert n)) -> exists x1, w = set_ctx (c_world c) x1 /\ has_read (c_ctx c) x1 /\ ahead x1 tr ts r' d') as K.
    { intros w n0 H0 N. rewrite next_step in N by exact Rd. destruct (hr_read fuel o (c_world c)) as [w1 rr] eqn:R.
      destruct (read_ahead _ _ _ _ _ _ _ _ _ Ah Wt R) as (x1 & -> & Hr & Rr). destruct rr as [hm|e| |]; cbn [sbind] in N; try discriminate.
      - exfalso. pose proof (firm_step (v_prims E) (v_pki E) o (set_ctx (c_world c) x1) s hm) as F. rewrite N in F. eapply alert_solid; [exact H0|exact F|reflexivity].
      - destruct Rr as (-> & A1). injection N as <- _. eauto. }
    assert (forall w n, n = 254 \/ n = 253 -> next (v_prims E) (v_pki E) o fuel (c_world c) s = (w, Err (EAlert n)) -> hl_datagram (x_in (w_ctx w)) = false) as K2.
    { intros w n0 H0 N. destruct (K w n0 H0 N) as (x1 & -> & _ & ((D & _) & _)). exact D. }
    assert (exists w, next (v_prims E) (v_pki E) o fuel (c_world c) s = (w, Err (EAlert n)) /\ c' = set_world c w) as (w & N & ->).
    { destruct (hl_datagram (x_in (c_ctx c'))) eqn:Dc; [|eapply turn_wait; eauto].
      exfalso. revert T. unfold handshake_turn. destruct (next _ _ _ _ _ _) as [w rn] eqn:N.
      destruct rn as [[[s' acts] retry]|e| |]; try discriminate.
      - destruct (takeActions _ _ _ _) as [c1 [u|e| |]] eqn:Ta; try discriminate.
        + set (c2 := set_hState c1 s'). destruct s'; cbn [sbind]; try discriminate. destruct (on_connected E o c2 c0) as [c3 r3] eqn:Oc. apply on_connected_solid in Oc.
          destruct r3 as [u'|e| |]; cbn [sbind]; try discriminate. intros [= <- ->]. eapply alert_solid; [exact Hn|exact Oc|reflexivity].
        + apply actions_alert in Ta. destruct Ta as (m & -> & L). intros F. pose proof (fail_alert_solid _ _ _ _ F L) as Q'. eapply alert_solid; [exact Hn|exact Q'|reflexivity].
      - destruct e as [a| |]; try discriminate. destruct (N.eqb_spec a AlertWouldBlock) as [->|Na].
        + pose proof (K2 w 254 (or_introl eq_refl) eq_refl) as Dw. change (c_ctx (set_world c w)) with (w_ctx w). rewrite Dw. intros [= <- <-]. change (c_ctx (set_world c w)) with (w_ctx w) in Dc. congruence.
        + destruct (a =? AlertCloseNotify); [intros F; pose proof (fail_alert_solid _ _ _ _ F eq_refl) as Q'; eapply alert_solid; [exact Hn|exact Q'|reflexivity]|].
          intros [= <- ->]. pose proof (K2 w n Hn eq_refl) as Dw. change (c_ctx (set_world c w)) with (w_ctx w) in Dc. congruence. }
    destruct (K w n Hn N) as (x1 & -> & Hr & A1). exists (EAlert n), x1. split; [reflexivity|]. split; [reflexivity|]. split; [exact Hr|]. split; [exact A1|].
    unfold turn_events. now rewrite N.
Qed.

(** What is left alone. *)
Lemma acts_shape E now l : forall c c' r, takeActions E now c l = (c', r) -> exists x p, c' = set_world c (mkW (w_cfg (c_world c)) p x (w_early (c_world c)) (w_hash (c_world c))).
Proof.
  assert (forall c a c' r, takeAction E now c a = (c', r) -> exists x p, c' = set_world c (mkW (w_cfg (c_world c)) p x (w_early (c_world c)) (w_hash (c_world c)))) as A.
  { intros c a c' r. destruct c as [[cf ps cx ea ha] cl st hs co rb cd].
    assert (forall x, exists x0 p, upd_ctx (mkC (mkW cf ps cx ea ha) cl st hs co rb cd) x = set_world (mkC (mkW cf ps cx ea ha) cl st hs co rb cd) (mkW cf p x0 ea ha)) as U by (intros x; exists x, ps; reflexivity).
    assert (exists x0 p, mkC (mkW cf ps cx ea ha) cl st hs co rb cd = set_world (mkC (mkW cf ps cx ea ha) cl st hs co rb cd) (mkW cf p x0 ea ha)) as U0 by (exists cx, ps; reflexivity).
    destruct a as [m| |e k|e k|sq|q]; cbn [takeAction c_world w_cfg w_early w_hash].
    - destruct (queueMessage _ _) as [x r0]. intros [= <- _]. apply U.
    - destruct (sendQueued _) as [x r0]. destruct (or_alert r0 _); cbn [sbind]; try (intros [= <- _]; apply U). destruct (cf_useDTLS _); intros [= <- _]; [eexists _, ps; reflexivity|apply U].
    - destruct (f_rem _); [destruct (layer_rekey _ _ _ _) as [l0 r0]; intros [= <- _]; apply U|intros [= <- _]; apply U0].
    - destruct (layer_rekey _ _ _ _) as [l0 r0]. intros [= <- _]. apply U.
    - intros [= <- _]. apply U.
    - destruct (cf_psks _); [|intros [= <- _]; apply U0]. intros [= <- _]. exists cx. eexists. reflexivity. }
  induction l as [|a l IH]; intros c c' r H; cbn [takeActions] in H.
  - injection H as <- _. destruct c as [[cf ps cx ea ha] cl st hs co rb cd]. exists cx, ps. reflexivity.
  - destruct (takeAction E now c a) as [c1 r1] eqn:T. apply A in T. destruct T as (x & p & T).
    destruct r1 as [u|e| |]; cbn [sbind] in H; try (injection H as <- _; exists x, p; exact T). apply IH in H. destruct H as (x1 & p1 & ->). subst c1. exists x1, p1. reflexivity.
Qed.
(** No handshake is complete here, and no application data has come. *)
Definition quiet (c : conn) : Prop := c_complete c = false /\ w_early (c_world c) = [] /\ c_readBuffer c = [].
Lemma quiet_ctx c x : quiet c -> quiet (upd_ctx c x).
Proof. exact (fun H => H). Qed.
Lemma quiet_hstate c s : quiet c -> quiet (set_hState c s).
Proof. exact (fun H => H). Qed.
Lemma next_early P X o fuel w s w' r : (forall k, s <> SWaitEOED k) -> next P X o fuel w s = (w', r) -> w_early w' = w_early w.
Proof.
  intros Ns H. pose proof (frame_next P X o fuel w s) as F. rewrite H in F. unfold all in F; cbn [fst] in F. destruct s; cbn [step_frame] in F; try apply F. destruct (Ns k eq_refl).
Qed.
Lemma acts_quiet E now c w l c1 r : quiet c -> w_early w = [] -> takeActions E now (set_world c w) l = (c1, r) -> quiet c1.
Proof. intros (A & B & C) Ew H. apply acts_shape in H. destruct H as (x & p & ->). unfold quiet. cbn. auto. Qed.

(** The start of a handshake. *)
Lemma client_setup E o c c' : c_isClient c = true -> handshakeSetup E o c = (c', Ok tt) ->
  exists w s acts retry c1, client_start (v_prims E) o (world_init (c_world c)) (start_of (w_cfg (world_init (c_world c)))) = (w, Ok (s, acts, retry)) /\
    takeActions E (o_ms o) (set_world c w) acts = (c1, Ok tt) /\ c' = set_hState c1 s /\ setup_events E o c = map Sent (sent_of acts).
Proof.
  intros R. unfold handshakeSetup, setup_events. change (c_isClient (set_world c (world_init (c_world c)))) with (c_isClient c). rewrite R. cbv zeta.
  change (c_world (set_world c (world_init (c_world c)))) with (world_init (c_world c)). change (c_cfg (set_world c (world_init (c_world c)))) with (w_cfg (world_init (c_world c))). fold (start_of (w_cfg (world_init (c_world c)))).
  destruct (client_start _ _ _ _) as [w r] eqn:Cs. destruct r as [[[s acts] retry]|e| |]; cbn [sbind]; try discriminate.
  change (set_world (set_world c (world_init (c_world c))) w) with (set_world c w). destruct (takeActions _ _ _ _) as [c1 [u|e| |]] eqn:Ta; cbn [sbind]; try discriminate.
  intros [= <-]. exists w, s, acts, retry, c1. destruct u. split; [reflexivity|]. split; [exact Ta|]. split; [reflexivity|]. apply queued_sent.
Qed.
Lemma world_init_ctx w : w_ctx (world_init w) = w_ctx w /\ w_early (world_init w) = w_early w.
Proof. unfold world_init. destruct (cf_psks (w_cfg w)); split; reflexivity. Qed.
Lemma server_setup E o c c' : c_isClient c = false -> handshakeSetup E o c = (c', Ok tt) ->
  exists w, c' = set_hState (set_world c w) SStart /\ w_ctx w = c_ctx c /\ w_early w = w_early (c_world c) /\ setup_events E o c = [].
Proof.
  intros R. unfold handshakeSetup, setup_events. change (c_isClient (set_world c (world_init (c_world c)))) with (c_isClient c). rewrite R. cbv zeta.
  set (c1 := set_world c (world_init (c_world c))). destruct (world_init_ctx (c_world c)) as [A B].
  assert (exists w, set_hState c1 SStart = set_hState (set_world c w) SStart /\ w_ctx w = c_ctx c /\ w_early w = w_early (c_world c) /\ @nil event = []) as D.
  { exists (world_init (c_world c)). auto. }
  destruct (cf_cookieProtector _); [intros [= <-]; exact D|]. destruct (cf_requireCookie _); [|intros [= <-]; exact D]. destruct (cf_nonBlocking _); [discriminate|].
  destruct (o_protector o) as [p|]; [|discriminate]. intros [= <-]. exists (set_cfg (world_init (c_world c)) (set_protector (c_cfg c1) (Some p))). auto.
Qed.

(** ** Calls of Handshake *)

Lemma small_app a b : small (a ++ b) <-> small a /\ small b.
Proof. unfold small. rewrite sends_app. apply Forall_app. Qed.
Definition returned {A} (r : res A) : Prop := match r with Ok _ => True | Err e => exists n, e = EAlert n /\ (n = 254 \/ n = 253) | _ => False end.

Section Calls.
Variables (Q : oracle -> Prop) (E : env) (J : list event -> conn -> Prop) (fuel : nat).
Hypothesis turn : forall evs o c s c' r, Q o -> J evs c -> c_hState c = Some s -> not_connected s -> handshake_turn E fuel o c s = (c', r) -> returned r ->
  small (turn_events E fuel o c s) -> J (evs ++ turn_events E fuel o c s) c'.
Hypothesis setup : forall evs o c c', Q o -> J evs c -> c_hState c = None -> handshakeSetup E o c = (c', Ok tt) -> small (setup_events E o c) -> J (evs ++ setup_events E o c) c'.
Hypothesis firm_setup : forall evs o c c' r, Q o -> J evs c -> c_hState c = None -> handshakeSetup E o c = (c', r) -> solid r.

Lemma loop_ind os : Forall Q os -> forall c s c' r evs, J evs c -> c_hState c = Some s -> handshake_loop E fuel os c s = (c', r) -> fine r \/ loop_blocked E fuel os c s ->
  small (loop_events E fuel os c s) -> J (evs ++ loop_events E fuel os c s) c'.
Proof.
  assert (forall evs c c' (r r' : res unit), J evs c -> (c, r') = (c', r) -> J (evs ++ []) c') as Z.
  { intros evs c c' r r' H [= <- _]. now rewrite app_nil_r. }
  induction os as [|o os IH]; intros Qs c s c' r evs H S T Fr Sm.
  - destruct s; cbn [handshake_loop loop_events] in *; try (eapply Z; [exact H|exact T]).
  - inversion Qs as [|? ? Qo Qs']; subst. destruct (not_connected_cases s) as [Nc|(k & ->)]; [|eapply Z; [exact H|exact T]].
    assert (handshake_loop E fuel (o :: os) c s = (call c, '(s, retry) <- handshake_turn E fuel o c s;
      if cf_nonBlocking (c_cfg c) then (c, if retry : bool then alert AlertStatelessRetry else Ok tt) else handshake_loop E fuel os c s)) as El by (destruct s; try reflexivity; contradiction).
    assert (loop_events E fuel (o :: os) c s = turn_events E fuel o c s ++ match handshake_turn E fuel o c s with
      | (c, Ok (s, _)) => if cf_nonBlocking (c_cfg c) then [] else loop_events E fuel os c s | _ => [] end) as Ee by (destruct s; try reflexivity; contradiction).
    rewrite El in T. rewrite Ee in *. cbn [loop_blocked] in Fr. destruct (handshake_turn E fuel o c s) as [c1 rt] eqn:Tn.
    assert (returned rt) as Rt.
    { destruct Fr as [Fr|Fr]; [|destruct rt as [[s1 rt1]|e| |]; [exact I|destruct Fr..]].
      apply (fine_cases rt r Fr). destruct rt as [[s1 rt1]|e| |]; cbn [sbind] in T; [exact I| | |]; injection T as _ <-; reflexivity. }
    apply small_app in Sm. destruct Sm as [Sm1 Sm2].
    pose proof (turn _ _ _ _ _ _ Qo H S Nc Tn Rt Sm1) as J1. rewrite app_assoc.
    destruct rt as [[s1 rt1]|e| |]; cbn [sbind] in T; [|eapply Z; [exact J1|exact T]|contradiction|contradiction].
    destruct (cf_nonBlocking (c_cfg c1)); [eapply Z; [exact J1|exact T]|]. eapply IH; eauto. exact (turn_hstate _ _ _ _ _ _ _ _ Tn).
Qed.
Lemma handshake_ind os evs c c' r : Forall Q os -> J evs c -> handshake E fuel os c = (c', r) -> fine r \/ blocked E fuel os c -> small (handshake_events E fuel os c) -> J (evs ++ handshake_events E fuel os c) c'.
Proof.
  intros Qs H T Fr Sm. unfold handshake, handshake_events in *. destruct (c_complete c); [injection T as <- _; now rewrite app_nil_r|].
  unfold blocked in Fr. destruct (c_hState c) as [s|] eqn:S; [eapply loop_ind; eauto|]. destruct os as [|o os]; [injection T as <- _; now rewrite app_nil_r|].
  inversion Qs as [|? ? Qo Qs']; subst. apply small_app in Sm. destruct Sm as [Sm1 Sm2]. destruct (handshakeSetup E o c) as [c1 r1] eqn:Hs. pose proof (firm_setup _ _ _ _ _ Qo H S Hs) as So.
  destruct r1 as [[]|e| |]; cbn [sbind] in T.
  - rewrite app_assoc. pose proof (setup _ _ _ _ Qo H S Hs Sm1) as J1. destruct (c_isClient c1 && cf_nonBlocking (c_cfg c1)); [injection T as <- _; now rewrite app_nil_r|].
    destruct (c_hState c1) as [s1|] eqn:S1; [eapply loop_ind; eauto|]. injection T as <- <-. destruct Fr as [[|[|]]|[]]; discriminate.
  - injection T as <- <-. destruct So as [S1 S2]. destruct Fr as [[|[|]]|[]]; [discriminate|contradiction..].
  - injection T as <- <-. destruct Fr as [[|[|]]|[]]; discriminate.
  - injection T as <- <-. destruct Fr as [[|[|]]|[]]; discriminate.
Qed.
End Calls.

(** ** The network *)

Lemma pipe_tx xr tr x x1 ts : pipe xr tr x ts -> x_out x1 = x_out x -> x_sent x1 = x_sent x -> pipe xr tr x1 ts.
Proof. unfold pipe, tx_ok. now intros H -> ->. Qed.
Lemma pipe_rx xr xr1 tr x ts : pipe xr tr x ts -> x_in xr1 = x_in xr -> pipe xr1 tr x ts.
Proof. intros (T & r' & A & R & S) H. split; [exact T|]. exists r'. split; [exact (ahead_same _ _ _ _ _ _ A H)|auto]. Qed.
Lemma pipe_taken xr tr c ts : pipe xr tr (c_ctx c) ts -> pipe xr (tr ++ concat (l_out (c_out c))) (c_ctx (taken c)) ts.
Proof. intros (T & r' & A & R & S). split; [exact T|]. exists r'. cbn -[concat]. rewrite app_nil_r. auto. Qed.
Lemma ahead_arrives c x y ts r' d' : ahead (c_ctx c) (x ++ y) ts r' d' -> ahead (c_ctx (arrives c [RBytes x])) y ts r' d'.
Proof.
  intros ((D & Q & (R1 & R2 & R3) & Fr & R) & H). split.
  - split; [exact D|]. split; [exact Q|]. split; [|split; [exact Fr|exact R]]. split; [exact R1|]. split; [exact R2|]. apply Forall_app. split; [exact R3|]. constructor; [eauto|constructor].
  - unfold rl_data in *. cbn -[concat data_of pending]. rewrite data_of_app. cbn [data_of]. rewrite app_nil_r, <- !app_assoc. rewrite <- !app_assoc in H. exact H.
Qed.
Lemma pipe_arrives c x y xw ts : pipe (c_ctx c) (x ++ y) xw ts -> pipe (c_ctx (arrives c [RBytes x])) y xw ts.
Proof. intros (T & r' & A & R & S). split; [exact T|]. exists r'. split; [|auto]. rewrite <- app_assoc in A. now apply ahead_arrives. Qed.

(** The reader has changed its keys before the writer. *)
Definition hole (xr : hctx) (tr : bytes) (x : hctx) (e : N) (k : aead) (iv : bytes) : Prop :=
  tx_ok x /\ exists r', ahead xr (tr ++ concat (l_out (outl x))) [] r' [] /\ rcore_ok r' /\ cur r' = mkCs e 0 iv (Some k).
Lemma hole_tx xr tr x x1 e k iv : hole xr tr x e k iv -> x_out x1 = x_out x -> x_sent x1 = x_sent x -> hole xr tr x1 e k iv.
Proof. unfold hole, tx_ok. now intros H -> ->. Qed.
Lemma hole_rx xr xr1 tr x e k iv : hole xr tr x e k iv -> x_in xr1 = x_in xr -> hole xr1 tr x e k iv.
Proof. intros (T & r' & A & R & S) H. split; [exact T|]. exists r'. split; [exact (ahead_same _ _ _ _ _ _ A H)|auto]. Qed.
Lemma hole_read xr tr x x1 e k iv : hole xr tr x e k iv -> has_read x x1 -> hole xr tr x1 e k iv.
Proof. intros H (l & f & n & ->). exact H. Qed.
Lemma hole_writer xr tr x x1 e k iv : hole xr tr x e k iv -> still x x1 -> hole xr tr x1 e k iv.
Proof. intros (T & r' & A & R & S) H. split; [exact (tx_still _ _ T H)|]. exists r'. destruct H as (_ & (_ & _ & _ & A4 & _) & _). rewrite A4. auto. Qed.
Lemma hole_taken xr tr c e k iv : hole xr tr (c_ctx c) e k iv -> hole xr (tr ++ concat (l_out (c_out c))) (c_ctx (taken c)) e k iv.
Proof. intros (T & r' & A & R & S). split; [exact T|]. exists r'. cbn -[concat]. rewrite app_nil_r. auto. Qed.
Lemma hole_arrives c x y xw e k iv : hole (c_ctx c) (x ++ y) xw e k iv -> hole (c_ctx (arrives c [RBytes x])) y xw e k iv.
Proof. intros (T & r' & A & R & S). split; [exact T|]. exists r'. split; [|auto]. rewrite <- app_assoc in A. now apply ahead_arrives. Qed.
Lemma hole_made xr tr x xr1 e k iv : pipe xr tr x [] -> x_in xr1 = set_rcore xr (rekey (l_core (inl xr)) e k iv) -> hole xr1 tr x e k iv.
Proof.
  intros (T & r' & A & R & S) X. split; [exact T|]. exists (rekey r' e k iv). split; [|split; [now apply rekey_rcore|apply rekey_cur]].
  apply (ahead_rekey xr _ e k iv); [|exact X]. destruct (ahead_quiet _ _ _ A) as (Q1 & Q2 & Q3 & ->). destruct A as [A _]. split; [exact A|]. rewrite Q1, Q2, Q3. apply h_key, h_nil.
Qed.
Lemma hole_filled E xr tr x e k iv : gcm_ok E -> (8 <= List.length iv)%nat -> hole xr tr x e (v_gcm E k) iv ->
  pipe xr tr (set_out x (set_conn (x_out x) (upd_core (outl x) (rekey (l_core (outl x)) e (v_gcm E k) iv)))) [].
Proof.
  intros G I ((T1 & T2 & T3 & T4 & T5) & r' & A & R & S). split; [split; [exact T1|split; [exact T2|split; [exact T3|split; [exact T4|now apply rekey_wr]]]]|].
  exists r'. split; [exact A|]. split; [exact R|]. unfold sync. cbn [x_out set_out set_conn hl_conn upd_core l_core]. rewrite rekey_cur, S. cbn. auto.
Qed.
