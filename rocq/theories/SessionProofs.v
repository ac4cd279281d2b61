(** What the connection keeps of the handshake. *)
From Verif Require Import Base Frame Record Handshake Crypto CryptoSpec CryptoProofs Messages Pki Negotiation NegotiationSpec NegotiationProofs Machine MachineProofs Client Server StepProofs Conn ConnSpec ConnProofs RunSpec RunProofs SessionSpec.

(** ** The connected state *)

Lemma session_refl k : same_session k k.
Proof. now repeat split. Qed.
Lemma session_trans a b c : same_session a b -> same_session b c -> same_session a c.
Proof. unfold same_session. intuition congruence. Qed.
Lemma session_key_update P w k r w' k' x : keyUpdate P w k r = ((w', k'), x) -> same_session k k'.
Proof. unfold keyUpdate. destruct (sc_isClient k); destruct (newMessage _ _) as [w1 rm]; intros [= _ <- _]; now repeat split. Qed.
Lemma session_process P X o w k hm w' k' acts : processMessage P X o w k hm = (w', Ok (k', acts)) -> same_session k k'.
Proof.
  unfold processMessage. intros H. inv_pure H as b Hb. destruct b; try discriminate.
  - destruct (negb _); [discriminate|]. injection H as _ <- _. apply session_refl.
  - match type of H with (let '(_, _) := ?t in _) = _ => assert (same_session k (fst t)) as S by (destruct (negb _); now repeat split); destruct t as [k1 keys] end. cbn [fst] in S.
    destruct (_ =? _); [|injection H as _ <- _; exact S].
    destruct (keyUpdate P w k1 _) as [[w2 k2] x] eqn:K. apply session_key_update in K. destruct x; try discriminate. injection H as _ <- _. eapply session_trans; eauto.
Qed.
Definition on_state (c c' : conn) : Prop := same_session (c_state c) (c_state c') /\ c_hState c' = c_hState c.
Lemma on_state_refl c : on_state c c.
Proof. split; [apply session_refl|reflexivity]. Qed.
Lemma on_state_trans a b c : on_state a b -> on_state b c -> on_state a c.
Proof. intros [A B] [C D]. split; [eapply session_trans; eauto|congruence]. Qed.
Lemma on_state_cframe c0 c : cframe c0 c -> on_state c0 c.
Proof. intros (_ & A & B & _). split; [rewrite A; apply session_refl|exact B]. Qed.
Lemma state_post E fuel o : forall c f, all (on_state c) (post_messages E fuel o c f).
Proof.
  induction fuel as [|fuel IH]; intros c f; destruct f as [|ty rest]; try exact (on_state_refl c). cbn [post_messages].
  destruct (_ <? _)%nat; [exact (on_state_refl c)|]. destruct (_ <? _)%nat; [exact (on_state_refl c)|]. set (hm := mkHm _ _ _ _ _ _ _).
  destruct (processMessage _ _ _ _ _ _) as [w [[s acts]|e| |]] eqn:Pm; try exact (on_state_refl c).
  - apply session_process in Pm.
    pose proof (cframe_actions E (o_ms o) (set_world c w) acts (set_world c w) (cframe_refl _)) as Q. destruct (takeActions _ _ _ _) as [c2 r2].
    unfold all in Q; cbn [fst] in Q. apply on_state_cframe in Q. change (on_state c c2) in Q. destruct r2 as [u|e| |]; try exact Q.
    + eapply all_imp; [|apply IH]. cbv beta. intros c3 H3. eapply on_state_trans; [|exact H3]. destruct Q as [_ Q2]. split; [exact Pm|exact Q2].
    + destruct e; try exact Q. eapply all_imp; [|apply cframe_fail_eof, cframe_refl]. intros c3 K. eapply on_state_trans; [exact Q|]. now apply on_state_cframe.
  - destruct e; try exact (on_state_refl c). eapply all_imp; [|apply cframe_fail_eof, cframe_refl]. intros c3 K. apply on_state_cframe in K. exact K.
Qed.
Lemma state_consume E o c : all (on_state c) (consumeRecord E o c).
Proof.
  unfold consumeRecord. destruct (readRecord (c_in c)) as [l r]. apply all_bind; [exact (on_state_refl c)|]. intros c1 pt P _. apply pair_ok in P. destruct P as [-> _].
  assert (forall A a, all (on_state c) (fail_eof (A := A) (upd_in c l) a)) as K.
  { intros A a. eapply all_imp; [|apply cframe_fail_eof, cframe_refl]. intros c3 Q. apply on_state_cframe in Q. exact Q. }
  destruct (Byte.eqb _ _); [apply (state_post E _ o (upd_in c l))|]. destruct (Byte.eqb _ _).
  - destruct (p_fragment pt) as [|x [|y [|z f]]]; try apply K. destruct (_ =? _); [exact (on_state_refl c)|]. destruct (_ =? _); [exact (on_state_refl c)|]. destruct (_ =? _); [exact (on_state_refl c)|apply K].
  - destruct (Byte.eqb _ _).
    + destruct (negb _); [exact (on_state_refl c)|]. destruct (processAck _ _ _) as [x r2]. exact (on_state_refl c).
    + destruct (Byte.eqb _ _); exact (on_state_refl c).
Qed.
Lemma state_read_loop E os : forall c n, all (on_state c) (read_loop E os c n).
Proof.
  induction os as [|o os IH]; intros c n; cbn [read_loop]; destruct (c_readBuffer c); try exact (on_state_refl c).
  pose proof (state_consume E o c) as Kc. destruct (consumeRecord E o c) as [c1 r]. unfold all in Kc; cbn [fst] in Kc.
  assert (all (on_state c) (read_loop E os c1 n)) as K. { eapply all_imp; [|apply IH]. cbv beta. intros c2 H. eapply on_state_trans; eauto. }
  destruct r as [u|e| |]; try exact Kc; [exact K|]. destruct (_ || _); [exact Kc|exact K].
Qed.
Lemma state_write_loop fuel : forall c b sent, on_state c (fst (write_loop fuel c b sent)).
Proof.
  induction fuel as [|fuel IH]; intros c b sent; destruct b as [|x b]; try exact (on_state_refl c). cbn [write_loop].
  set (pt := mkPt _ _ _ _). destruct (writeRecord _ pt) as [l r]. destruct r; try exact (on_state_refl c).
  exact (IH (upd_out c l) _ _).
Qed.
Lemma other_state E cfg client c c' : inv cfg client c -> other_use E c c' -> on_state c c'.
Proof.
  intros I U. destruct U; try exact (on_state_refl c).
  - unfold read. destruct (is_connected c) eqn:K; cbn [negb].
    + rewrite (handshake_complete _ _ _ _ (complete_connected _ _ _ I K)). cbn [sbind].
      destruct (_ =? _)%nat; [exact (on_state_refl c)|]. assert (forall c1, on_state c c1 -> on_state c (fst (read_loop E os c1 n))) as Z.
      { intros c1 H1. eapply on_state_trans; [exact H1|apply (state_read_loop E os c1 n)]. }
      destruct (cf_useDTLS _); [|apply Z, on_state_refl]. destruct os as [|o os]; [exact (on_state_refl c)|]. destruct (checkTimers _ _ _) as [x [u|e| |]]; cbn [sbind or_alert]; try exact (on_state_refl c).
      eapply on_state_trans; [|apply state_read_loop]. exact (on_state_refl c).
    + destruct (c_isClient c); [exact (on_state_refl c)|]. destruct (negb _); [exact (on_state_refl c)|]. destruct (w_early _); exact (on_state_refl c).
  - unfold write. destruct (negb _); [exact (on_state_refl c)|]. apply state_write_loop.
  - unfold sendKeyUpdate. destruct (c_complete c) eqn:Cc; cbn [negb]; [|exact (on_state_refl c)].
    destruct (keyUpdate _ _ _ _) as [[w s] x] eqn:Ku. apply session_key_update in Ku. set (c1 := set_state (set_world c w) s).
    assert (on_state c c1) as K1. { split; [exact Ku|reflexivity]. }
    assert (forall c2 a e, on_state c c2 -> on_state c (fst (call c2, _ <- sendAlert c2 a; (c2, Err (A := unit) e)))) as K.
    { intros c2 a e H. pose proof (cframe_alert c2 c2 a (cframe_refl _)) as Q. destruct (sendAlert c2 a) as [c3 [u|e'| |]]; unfold all in Q; cbn [fst sbind] in *; apply on_state_cframe in Q; eapply on_state_trans; eauto. }
    destruct x as [acts|e| |]; try exact K1; [|destruct e; try exact K1; now apply K].
    pose proof (cframe_actions E (o_ms o) c1 acts c1 (cframe_refl _)) as Q. destruct (takeActions _ _ _ _) as [c2 r2]. unfold all in Q. cbn [fst] in Q. apply on_state_cframe in Q.
    assert (on_state c c2) as K2 by (eapply on_state_trans; eauto). destruct r2 as [u|e| |]; try exact K2. destruct e; try exact K2. now apply K.
Qed.

Definition settled (c : conn) : Prop := forall k, c_hState c = Some (Connected k) -> same_session k (c_state c).
Lemma connected_state E o c k c' : on_connected E o c k = (c', Ok tt) -> c_state c' = k.
Proof.
  unfold on_connected. set (c1 := set_complete c k). cbv zeta. assert (c_state c1 = k) as S1 by reflexivity. clearbody c1. destruct (c_isClient _).
  { destruct (w_early _); intros [= <-]; exact S1. }
  match goal with |- sbind ?t ?f = _ -> _ => assert (all (fun c2 => c_state c2 = k) t) as F; [|destruct t as [c2 r2]] end.
  - destruct (cf_sendSessionTickets _); [|exact S1]. destruct (newTicket _ _ _ _) as [w [acts|e| |]]; try exact S1.
    pose proof (cframe_actions E (o_ms o) (set_world c1 w) acts (set_world c1 w) (cframe_refl _)) as Q.
    destruct (takeActions _ _ _ _) as [c2 r2]. destruct Q as (_ & Q & _). cbn [fst] in Q. change (c_state (set_world c1 w)) with (c_state c1) in Q.
    assert (c_state c2 = k) as S2 by congruence. destruct r2 as [u|e| |]; try exact S2. destruct e; try exact S2.
    eapply all_imp; [|apply cframe_fail_alert, cframe_refl]. intros c3 (_ & K & _). congruence.
  - unfold all in F; cbn [fst] in F. destruct r2 as [u|e| |]; cbn [sbind]; try discriminate. destruct (w_early _); intros [= <-]; exact F.
Qed.

Lemma settled_keep c c' : settled c -> on_state c c' -> settled c'.
Proof. intros H [A B] k K. rewrite B in K. eapply session_trans; [exact (H k K)|exact A]. Qed.
Lemma settled_turn E fuel o c s c' r : settled c -> c_hState c = Some s -> not_connected s -> handshake_turn E fuel o c s = (c', r) ->
  match r with Ok _ => True | Err e => exists n, e = EAlert n /\ (n = 254 \/ n = 253) | _ => False end -> settled c'.
Proof.
  intros H S Nc T Hr. pose proof T as T0. apply turn_cases in T. destruct T as (w & rn & N & [[F Q]|(s' & acts & retry & c1 & -> & Ta & D)]).
  - apply (settled_keep c); [exact H|]. apply on_state_cframe in Q. exact Q.
  - destruct D as [(Nc' & -> & ->)|(k & r1 & -> & Oc & ->)].
    + intros k K. cbn in K. injection K as ->. contradiction.
    + pose proof (on_connected_solid _ _ _ _ _ _ Oc) as So. destruct r1 as [[]|e| |]; cbn [bind] in Hr; try contradiction.
      * pose proof (connected_state _ _ _ _ _ Oc) as St. pose proof (turn_hstate _ _ _ _ _ _ _ _ T0) as Sh. intros k' K. rewrite Sh in K. injection K as <-. rewrite St. apply session_refl.
      * destruct Hr as (n & -> & Hn). destruct So as [A B]. exfalso. destruct Hn as [->| ->]; auto.
Qed.
Lemma settled_loop E fuel os : forall c s c' r, settled c -> c_hState c = Some s -> handshake_loop E fuel os c s = (c', r) -> fine r \/ loop_blocked E fuel os c s -> settled c'.
Proof.
  induction os as [|o os IH]; intros c s c' r H S T Fr.
  { destruct s; cbn in T; injection T as <- _; exact H. }
  destruct (not_connected_cases s) as [Nc|[k ->]]; [|cbn in T; injection T as <- _; exact H].
  assert (handshake_loop E fuel (o :: os) c s = (call c, '(s, retry) <- handshake_turn E fuel o c s;
    if cf_nonBlocking (c_cfg c) then (c, if retry : bool then alert AlertStatelessRetry else Ok tt) else handshake_loop E fuel os c s)) as Eq.
  { destruct s; try reflexivity. contradiction. }
  rewrite Eq in T. clear Eq. cbn [loop_blocked] in Fr. destruct (handshake_turn E fuel o c s) as [c1 r1] eqn:Tn.
  assert (match r1 with Ok _ => True | Err e => exists n, e = EAlert n /\ (n = 254 \/ n = 253) | _ => False end) as Hr.
  { destruct r1 as [[s1 rt]|e| |]; [exact I| | |]; cbn [sbind] in T; injection T as _ <-; destruct Fr as [[Fr|[Fr|Fr]]|[]]; try discriminate; injection Fr as ->; eauto. }
  pose proof (settled_turn _ _ _ _ _ _ _ H S Nc Tn Hr) as K. destruct r1 as [[s1 rt]|e| |]; cbn [sbind] in T.
  - destruct (cf_nonBlocking _); [injection T as <- _; exact K|]. eapply IH; eauto. eapply turn_hstate; eauto.
  - injection T as <- _. exact K.
  - contradiction.
  - contradiction.
Qed.
Lemma setup_hstate E o c c' r k : c_hState c = None -> handshakeSetup E o c = (c', r) -> c_hState c' <> Some (Connected k).
Proof.
  intros S. unfold handshakeSetup. set (c1 := set_world c _). cbv zeta. assert (c_hState c1 = None) as S1 by exact S. clearbody c1. destruct (c_isClient c1).
  - destruct (client_start _ _ _ _) as [w [[[s acts] rt]|e| |]] eqn:Cs; cbn [sbind]; try (intros [= <- _]; cbn; congruence).
    apply client_start_ok in Cs. destruct Cs as (ws & _ & _ & _ & -> & _).
    pose proof (cframe_actions E (o_ms o) (set_world c1 w) acts (set_world c1 w) (cframe_refl _)) as Q. destruct (takeActions _ _ _ _) as [c2 r2].
    destruct Q as (_ & _ & Q & _). cbn in Q. destruct r2; cbn [sbind]; intros [= <- _]; cbn; congruence.
  - destruct (cf_cookieProtector _); [intros [= <- _]; cbn; congruence|]. destruct (cf_requireCookie _); [|intros [= <- _]; cbn; congruence].
    destruct (cf_nonBlocking _); [intros [= <- _]; cbn; congruence|]. destruct (o_protector o); intros [= <- _]; cbn; congruence.
Qed.
Theorem steady_settled Q E cfg psks client input evs c : steady Q E (newConn cfg psks client input) evs c -> settled c.
Proof.
  intros H. induction H as [|fuel os evs c c' r H IH _ T Fr|evs c c' H IH U].
  - intros k K. discriminate.
  - unfold handshake in T. destruct (c_complete c); [injection T as <- _; exact IH|]. unfold blocked in Fr. destruct (c_hState c) as [s|] eqn:S; [eapply settled_loop; eauto|].
    destruct os as [|o os]; [injection T as <- _; exact IH|]. destruct (handshakeSetup E o c) as [c1 r1] eqn:Ts.
    assert (settled c1) as K1. { intros k K. exfalso. eapply setup_hstate; eauto. }
    destruct r1 as [[]|e| |]; cbn [sbind] in T; try (injection T as <- _; exact K1).
    destruct (_ && _); [injection T as <- _; exact K1|]. destruct (c_hState c1) as [s|] eqn:S1; [eapply settled_loop; eauto|]. injection T as <- _. exact K1.
  - apply steady_used, inv_used in H. eapply settled_keep; [exact IH|]. eapply other_state; eauto.
Qed.
