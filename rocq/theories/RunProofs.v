(** From histories of a connection to paths of the state machine. *)
From Verif Require Import Base Syntax Frame Record Timer Handshake Crypto Messages Pki Negotiation NegotiationSpec NegotiationProofs Machine Cookie Client Server.
From Verif Require Import MachineProofs CtxProofs StepProofs Conn ConnSpec ConnProofs EarlyProofs RunSpec.

(** ** Steps do not block after the message has been read *)

(** Neither of the two alerts that are not errors. *)
Definition solid {A} (r : res A) : Prop := r <> Err (EAlert 254) /\ r <> Err (EAlert 253).
Definition firm {S A} (p : S * res A) : Prop := solid (snd p).
Lemma solid_err {A B} e : solid (Err (A := A) e) -> solid (Err (A := B) e).
Proof. intros [H K]. split; intros Q; injection Q as ->; [now apply H|now apply K]. Qed.
Lemma solid_ok {A} (a : A) : solid (Ok a).
Proof. now split. Qed.
Lemma solid_panic {A} : solid (Panic (A := A)).
Proof. now split. Qed.
Lemma solid_fuel {A} : solid (Fuel (A := A)).
Proof. now split. Qed.
Lemma firm_bind {S A B} (p : S * res A) (f : S -> A -> S * res B) :
  firm p -> (forall s a, firm (f s a)) -> firm (sbind p f).
Proof.
  destruct p as [s [a|e| |]]; cbn [sbind]; unfold firm; cbn [snd]; intros H K; [apply K| |apply solid_panic|apply solid_fuel]. exact (solid_err e H).
Qed.
Lemma firm_pair {S A} (s : S) (r : res A) : solid r -> firm (s, r).
Proof. auto. Qed.
Lemma solid_alert {A} n : (n <? 253) = true -> solid (alert (A := A) n).
Proof. intros H. split; intros [= ->]; discriminate. Qed.
Lemma solid_or {A} (r : res A) n : (n <? 253) = true -> solid (or_alert r n).
Proof. intros H. destruct r; [apply solid_ok|now apply solid_alert|apply solid_panic|apply solid_fuel]. Qed.
Lemma solid_bind {A B} (r : res A) (f : A -> res B) : solid r -> (forall a, solid (f a)) -> solid (bind r f).
Proof.
  destruct r as [a|e| |]; cbn [bind]; intros H K; [apply K| |apply solid_panic|apply solid_fuel]. exact (solid_err e H).
Qed.
Lemma solid_recv o c t l : solid (ext_recv o c t l).
Proof. unfold ext_recv. destruct (cf_extensionHandler c); [|apply solid_ok]. destruct (o_recv _ _ _ _); now split. Qed.
Lemma solid_send o c t l : solid (ext_send o c t l).
Proof. unfold ext_send. destruct (cf_extensionHandler c); [|apply solid_ok]. destruct (o_send _ _ _ _); now split. Qed.
Lemma firm_new w b : firm (newMessage w b).
Proof. unfold newMessage. destruct (makeMessage w b). apply firm_pair, solid_or. reflexivity. Qed.
#[export] Hint Resolve solid_ok solid_panic solid_fuel solid_recv solid_send firm_new : firm.
Ltac firm1 := first
  [ solve [auto with firm]
  | progress intros
  | match goal with |- firm (sbind _ _) => apply firm_bind end
  | match goal with |- firm (let _ := _ in _) => cbv zeta end
  | match goal with |- firm (_, _) => apply firm_pair end
  | match goal with |- solid (bind _ _) => apply solid_bind end
  | match goal with |- solid (let _ := _ in _) => cbv zeta end
  | match goal with |- solid (alert _) => apply solid_alert; reflexivity end
  | match goal with |- solid (or_alert _ _) => apply solid_or; reflexivity end
  | match goal with |- firm (match ?x with _ => _ end) => destruct x end
  | match goal with |- solid (match ?x with _ => _ end) => destruct x end ].
Ltac firmly := repeat firm1.

Lemma firm_client_start P o w st : firm (client_start P o w st).
Proof. unfold client_start, done. firmly. Qed.
Lemma firm_client_wait_sh P o w st hm : firm (client_wait_sh P o w st hm).
Proof. unfold client_wait_sh, client_hrr, client_server_hello, done. firmly. Qed.
Lemma firm_client_wait_ee P o w k hm : firm (client_wait_ee P o w k hm).
Proof. unfold client_wait_ee, done. firmly. Qed.
Lemma firm_client_wait_cert_cr X w k hm : firm (client_wait_cert_cr X w k hm).
Proof. unfold client_wait_cert_cr, done. firmly. Qed.
Lemma firm_client_wait_cert X w k cr hm : firm (client_wait_cert X w k cr hm).
Proof. unfold client_wait_cert, done. firmly. Qed.
Lemma firm_client_wait_cv P X o w k cert cr hm : firm (client_wait_cv P X o w k cert cr hm).
Proof. unfold client_wait_cv, done. firmly. Qed.
Lemma firm_client_wait_finished P X o w k certs cr peer chains hm : firm (client_wait_finished P X o w k certs cr peer chains hm).
Proof. unfold client_wait_finished, client_eoed, client_auth, done. firmly. Qed.
Lemma solid_dh_try P rnd share groups : forall n, solid (dh_try P rnd n share groups).
Proof.
  induction groups as [|g groups IH]; intros n; cbn [dh_try]; firmly.
Qed.
Lemma solid_dh P rnd groups shares : forall n, solid (dhNegotiation P rnd n shares groups).
Proof.
  induction shares as [|s shares IH]; intros n; cbn [dhNegotiation]; [firmly|]. apply solid_bind; [apply solid_dh_try|]. intros [m [x|]]; firmly.
Qed.
Lemma firm_hrr o w s ses t : firm (generateHRR o w s ses t).
Proof. unfold generateHRR. firmly. Qed.
Lemma solid_new_cookie P o cfg s hm : solid (new_cookie P o cfg s hm).
Proof. unfold new_cookie. firmly. Qed.
#[export] Hint Resolve solid_dh firm_hrr solid_new_cookie : firm.
Lemma firm_server_start P X o w hm : firm (server_start P X o w hm).
Proof. unfold server_start, server_psk, server_retry, server_cert, check_cookie, done. firmly. Qed.
Lemma firm_server_negotiated P X o w n : firm (server_negotiated P X o w n).
Proof. unfold server_negotiated, server_auth, done. firmly. Qed.
Lemma firm_server_wait_eoed P w k hm : firm (server_wait_eoed P w k hm).
Proof. unfold server_wait_eoed, done. firmly. Qed.
Lemma firm_server_wait_cert X w k hm : firm (server_wait_cert X w k hm).
Proof. unfold server_wait_cert, done. firmly. Qed.
Lemma firm_server_wait_cv P X o w k cert hm : firm (server_wait_cv P X o w k cert hm).
Proof. unfold server_wait_cv, done. firmly. Qed.
Lemma solid_final x : solid (snd (receivedFinalFlight x)).
Proof.
  unfold receivedFinalFlight. destruct (negb _); [apply solid_ok|]. cbv zeta. destruct (sendAck _) as [y [u|e| |]]; cbn; auto with firm.
Qed.
Lemma firm_server_wait_finished P w k peer hm : firm (server_wait_finished P w k peer hm).
Proof.
  unfold server_wait_finished, done. destruct (negb _); [firmly|]. cbv zeta. apply firm_bind; [firmly|]. intros w1 d. destruct (negb _); [firmly|].
  pose proof (solid_final (w_ctx (hash_write w1 (hm_marshal hm)))) as K. destruct (receivedFinalFlight _) as [x r]. cbn [snd] in K.
  apply firm_bind; [now apply firm_pair|]. firmly.
Qed.

(** The kind of transport of the reading and the writing layer. *)
Definition w_kind (w : world) : bool * bool := (hl_datagram (x_in (w_ctx w)), hl_datagram (x_out (w_ctx w))).
Lemma wx_kind w w' : wxframe w w' -> w_kind w' = w_kind w.
Proof. intros (_ & _ & A & B & _). unfold w_kind. now rewrite A, B. Qed.
Definition kept (w w' : world) : Prop := w_hash w' = w_hash w /\ w_cfg w' = w_cfg w /\ w_psks w' = w_psks w /\ w_kind w' = w_kind w.
Lemma kept_refl w : kept w w.
Proof. unfold kept. auto. Qed.
Lemma kept_trans a b c : kept a b -> kept b c -> kept a c.
Proof. unfold kept. intuition congruence. Qed.
Lemma kept_hr fuel o w w' r : hr_read fuel o w = (w', r) -> kept w w'.
Proof.
  intros H. split; [eapply hr_hash; exact H|]. pose proof (frame_hr w fuel o w (frame_refl w)) as F. rewrite H in F. destruct F as (F1 & F2 & _).
  pose proof (wx_hr w fuel o w (wx_refl w)) as K. rewrite H in K. apply wx_kind in K. cbn [fst] in K. now repeat split.
Qed.
Lemma kept_peek fuel w w' r : peek fuel w = (w', r) -> kept w w'.
Proof.
  intros H. pose proof (peek_hash fuel w) as A. pose proof (frame_peek w fuel w (frame_refl w)) as F. 
  pose proof (wx_peek w fuel w (wx_refl w)) as K. rewrite H in *. cbn [fst] in A. destruct F as (F1 & F2 & _). apply wx_kind in K. now repeat split.
Qed.
Lemma kept_early fuel w w' r : read_early fuel w = (w', r) -> kept w w'.
Proof.
  intros H. pose proof (read_early_hash fuel w) as A. pose proof (early_frame_read w fuel w (frame_early_frame _ _ (frame_refl w))) as F.
  pose proof (wx_read_early w fuel w (wx_refl w)) as K. rewrite H in *. cbn [fst] in A. destruct F as (F1 & F2 & _). apply wx_kind in K. now repeat split.
Qed.
Lemma kept_past fuel : forall w nx w' r, server_read_past fuel w nx = (w', r) -> kept w w'.
Proof.
  induction fuel as [|f IH]; intros w nx w' r; cbn [server_read_past]; [intros [= <- _]; apply kept_refl|].
  destruct (peek (S f) w) as [w1 [t|e| |]] eqn:K; apply kept_peek in K; unfold done; try (intros [= <- _]; exact K).
  destruct e; try (intros [= <- _]; exact K). intros H. apply IH in H. eapply kept_trans; eauto.
Qed.

(** A step that would block has changed nothing that matters. *)
Lemma next_blocked P X o fuel w s w' n : n = 254 \/ n = 253 -> next P X o fuel w s = (w', Err (EAlert n)) -> kept w w'.
Proof.
  intros N. assert (forall A (r : res A), solid r -> r = Err (EAlert n) -> False) as Z.
  { intros A r [H K] ->. destruct N as [->| ->]; auto. }
  assert (forall f w, (forall w hm, firm (f w hm)) -> (call w, hm <- hr_read fuel o w; f w hm) = (w', Err (A := outcome) (EAlert n)) -> kept w w') as R.
  { intros f v Hf. destruct (hr_read fuel o v) as [w1 [hm|e| |]] eqn:H; apply kept_hr in H; cbn [sbind]; try discriminate.
    - intros K. specialize (Hf w1 hm). rewrite K in Hf. exfalso. now apply (Z _ _ Hf).
    - intros [= <- _]. exact H. }
  assert (forall p : world * res outcome, firm p -> p = (w', Err (EAlert n)) -> kept w w') as F.
  { intros p Hp ->. exfalso. now apply (Z _ _ Hp). }
  destruct s; cbn [next].
  - apply F, firm_client_start.
  - apply R. intros; apply firm_client_wait_sh.
  - apply R. intros; apply firm_client_wait_ee.
  - apply R. intros; apply firm_client_wait_cert_cr.
  - apply R. intros; apply firm_client_wait_cert.
  - apply R. intros; apply firm_client_wait_cv.
  - apply R. intros; apply firm_client_wait_finished.
  - apply R. intros; apply firm_server_start.
  - apply F, firm_server_negotiated.
  - destruct (read_early fuel w) as [w1 [u|e| |]] eqn:H; apply kept_early in H; cbn [sbind]; try discriminate.
    + intros K. apply R in K; [eapply kept_trans; eauto|]. intros; apply firm_server_wait_eoed.
    + intros [= <- _]. exact H.
  - apply kept_past.
  - discriminate.
  - apply R. intros; apply firm_server_wait_cert.
  - apply R. intros; apply firm_server_wait_cv.
  - apply R. intros; apply firm_server_wait_finished.
  - discriminate.
Qed.

(** ** Actions *)

Lemma solid_action E now c a : solid (snd (takeAction E now c a)).
Proof.
  destruct a; cbn [takeAction].
  - destruct (queueMessage _ _). cbn. apply solid_or. reflexivity.
  - destruct (sendQueued _) as [x r]. destruct r; cbn; auto with firm. apply solid_alert. reflexivity.
  - destruct (f_rem _); [|cbn; apply solid_alert; reflexivity]. destruct (layer_rekey _ _ _ _). cbn. apply solid_or. reflexivity.
  - destruct (layer_rekey _ _ _ _). cbn. apply solid_or. reflexivity.
  - cbn. auto with firm.
  - destruct (cf_psks _); cbn; auto with firm.
Qed.
Lemma solid_actions E now l : forall c, solid (snd (takeActions E now c l)).
Proof.
  induction l as [|a l IH]; intros c; cbn [takeActions]; [cbn; auto with firm|]. pose proof (solid_action E now c a) as K.
  destruct (takeAction E now c a) as [c1 [u|e| |]]; cbn [sbind snd] in *; auto with firm; try apply IH.
Qed.
Definition stores (a : action) : bool := match a with StorePSK _ => true | _ => false end.
Lemma kept_action E now c a : stores a = false -> kept (c_world c) (c_world (fst (takeAction E now c a))).
Proof.
  intros H. destruct a; cbn [takeAction]; try discriminate H.
  - pose proof (xframe_queue (c_ctx c) (c_ctx c) m (xframe_refl _)) as F. destruct (queueMessage _ _) as [x r]. apply (wx_kind (c_world c) (set_ctx (c_world c) x)) in F. now repeat split.
  - pose proof (xframe_send (c_ctx c) (c_ctx c) (xframe_refl _)) as F. destruct (sendQueued _) as [x r]. unfold all in F; cbn [fst] in F.
    pose proof (wx_kind (c_world c) (set_ctx (c_world c) x) F) as G. pose proof (wx_kind (c_world c) (set_ctx (c_world c) (armRetransmit now x)) (xframe_arm _ _ now F)) as G'.
    destruct r; cbn [sbind or_alert fst]; try (now repeat split). destruct (cf_useDTLS _); now repeat split.
  - destruct (f_rem _); [|now repeat split]. destruct (layer_rekey _ _ _ _). now repeat split.
  - destruct (layer_rekey _ _ _ _). now repeat split.
  - now repeat split.
Qed.
Lemma kept_actions E now l : forallb (fun a => negb (stores a)) l = true -> forall c, kept (c_world c) (c_world (fst (takeActions E now c l))).
Proof.
  induction l as [|a l IH]; cbn [forallb takeActions]; intros H c; [apply kept_refl|]. apply andb_prop in H as [Ha Hl].
  apply Bool.negb_true_iff in Ha. pose proof (kept_action E now c a Ha) as K. destruct (takeAction E now c a) as [c1 [u|e| |]]; cbn [sbind fst] in *; try exact K.
  eapply kept_trans; [exact K|]. now apply IH.
Qed.
Lemma only_stores l : only_messages l -> forallb (fun a => negb (stores a)) l = true.
Proof. induction 1 as [|a l [m ->] _ IH]; cbn; auto. Qed.
Lemma next_stores P X o fuel w s w' s' acts retry : next P X o fuel w s = (w', Ok (s', acts, retry)) -> forallb (fun a => negb (stores a)) acts = true.
Proof.
  destruct s; cbn [next].
  - intros H. apply client_start_ok in H. destruct H as (ws & ch & sending & k & _ & _ & -> & _). destruct sending; reflexivity.
  - intros H. inv_call H as w1 hm H1. apply client_wait_sh_ok in H. destruct H as (sh & n & vs & _ & _ & _ & _ & _ & [[_ H]|[_ H]]).
    + apply client_hrr_ok in H. destruct H as (c & ps & exts & _ & _ & -> & _). reflexivity.
    + apply client_server_hello_ok in H. destruct H as (? & ? & ? & ? & ps & ? & _ & _ & _ & _ & _ & H). cbv zeta in H. destruct (handshake_secrets _ _ _ _ _) as [[chs shs] ms].
      destruct H as (_ & _ & ->). match goal with |- context [if ?b then _ else _] => destruct b end; reflexivity.
  - intros H. inv_call H as w1 hm H1. apply client_wait_ee_ok in H. destruct H as (? & ? & ? & ? & _ & _ & _ & _ & _ & _ & _ & ->).
    match goal with |- context [if ?b then _ else _] => destruct b end; reflexivity.
  - intros H. inv_call H as w1 hm H1. apply client_wait_cert_cr_ok in H. now destruct H as (_ & _ & -> & _).
  - intros H. inv_call H as w1 hm H1. apply client_wait_cert_ok in H. now destruct H as (_ & _ & -> & _).
  - intros H. inv_call H as w1 hm H1. apply client_wait_cv_ok in H. now destruct H as (_ & _ & -> & _).
  - intros H. inv_call H as w1 hm H1. apply client_wait_finished_ok in H. destruct H as (w3 & w4 & eoed & auth & finm & _ & _ & He & Ha & _ & _ & _ & _ & _ & -> & _).
    apply client_eoed_ok in He. destruct He as [_ He]. apply client_auth_ok in Ha. destruct Ha as (_ & Ha & _). rewrite !forallb_app. rewrite (only_stores _ Ha).
    destruct (p_usingEarlyData _); [destruct He as (m & _ & ->)|subst]; reflexivity.
  - intros H. inv_call H as w1 hm H1. apply server_start_ok in H.
    destruct H as (ch & exts & found & x & v & first & dhs & dh & chosen & suite & hrr & again & w3 & w4 & w5 & _ & _ & _ & _ & _ & _ & _ & _ & _ & _ & _ & H).
    cbv zeta in H. destruct (pskModeNegotiation _ _ _) as [ud up]. destruct H as (_ & _ & _ & _ & _ & H). destruct again.
    + destruct H as (_ & _ & ->). destruct hrr; reflexivity.
    + destruct H as (_ & cert & scheme & proto & _ & _ & -> & _). reflexivity.
  - intros H. apply server_negotiated_ok in H. destruct H as (random & hexts & eexts & shm & ps & w3 & w4 & eem & finm & auth & ca & _ & _ & _ & _ & _ & H).
    cbv zeta in H. destruct (handshake_secrets _ _ _ _ _) as [[chs shs] ms]. destruct H as (_ & _ & _ & _ & _ & Ha & _ & _ & _ & _ & _ & -> & _).
    apply server_auth_ok in Ha. destruct Ha as (_ & Ha & _). rewrite !forallb_app, (only_stores _ Ha). destruct (p_usingEarlyData _); reflexivity.
  - intros H. inv_call H as w1 u H1. inv_call H as w2 hm H2. apply server_wait_eoed_ok in H. now destruct H as (_ & _ & _ & _ & _ & ->).
  - intros H. apply server_read_past_ok in H. now destruct H as (_ & _ & _ & ->).
  - intros H. apply server_wait_flight2_ok in H. now destruct H as (_ & _ & -> & _).
  - intros H. inv_call H as w1 hm H1. apply server_wait_cert_ok in H. now destruct H as (? & _ & _ & _ & _ & -> & _).
  - intros H. inv_call H as w1 hm H1. apply server_wait_cv_ok in H. now destruct H as (? & ? & ? & _ & _ & _ & _ & _ & _ & _ & -> & _).
  - intros H. inv_call H as w1 hm H1. apply server_wait_finished_ok in H. now destruct H as (_ & _ & _ & _ & _ & ->).
  - now intros [= _ _ <- _].
Qed.

(** ** Paths of the machine *)

Section Paths.
Variables (Q : oracle -> Prop) (E : env) (cfg : config) (psks : cache).
Notation P := (v_prims E).
Notation X := (v_pki E).
Definition start_psks : cache := match cf_psks cfg with None => [] | Some _ => psks end.
Definition start_of (c : config) : cstart := mkCst (cf_serverName c) (cf_nextProtos c) no_params None None None.

Inductive path : bool -> list event -> hstate -> world -> Prop :=
| path_client o w w' s acts retry : Q o -> w_cfg w = cfg_init cfg -> w_psks w = start_psks -> w_kind w = (cf_useDTLS cfg, cf_useDTLS cfg) ->
    client_start P o w (start_of (w_cfg w)) = (w', Ok (s, acts, retry)) -> path true (map Sent (sent_of acts)) s w'
| path_server w : w_cfg w = cfg_init cfg \/ (cf_cookieProtector cfg = None /\ exists p, w_cfg w = set_protector (cfg_init cfg) (Some p)) -> w_psks w = start_psks ->
    w_kind w = (cf_useDTLS cfg, cf_useDTLS cfg) -> path false [] SStart w
| path_next client o fuel evs s w w' s' acts retry : path client evs s w -> Q o -> not_connected s ->
    next P X o fuel w s = (w', Ok (s', acts, retry)) -> path client (evs ++ read_by fuel o w s ++ map Sent (sent_of acts)) s' w'
| path_kept client evs s w w' : path client evs s w -> kept w w' -> path client evs s w'.
Lemma path_kind client evs s w : path client evs s w -> w_kind w = (cf_useDTLS cfg, cf_useDTLS cfg).
Proof.
  intros H. induction H as [o w w' s acts retry Qo Hc Hp Hk Cs|w Hw Hp Hk|client o fuel evs s w w' s' acts retry H IH Qo Nc N|client evs s w w' H IH K]; [|exact Hk| |].
  - pose proof (wx_client_start w P o w (start_of (w_cfg w)) (wx_refl w)) as F. rewrite Cs in F. apply wx_kind in F. cbn [fst] in F. congruence.
  - pose proof (wx_next w P X o fuel w s (wx_refl w)) as F. rewrite N in F. apply wx_kind in F. cbn [fst] in F. congruence.
  - destruct K as (_ & _ & _ & K). congruence.
Qed.
End Paths.

Lemma queued_sent w s acts retry : queued (w, Ok (s, acts, retry)) = map Sent (sent_of acts).
Proof. unfold queued; cbn [snd]. induction acts as [|[] acts IH]; cbn; auto. now rewrite IH. Qed.

Definition on_path (Q : oracle -> Prop) (E : env) (cfg : config) (psks : cache) (client : bool) (evs : list event) (c : conn) : Prop :=
  match c_hState c with
  | None => evs = [] /\ c_cfg c = cfg /\ w_psks (c_world c) = psks /\ w_kind (c_world c) = (cf_useDTLS cfg, cf_useDTLS cfg)
  | Some s => exists w, path Q E cfg psks client evs s w /\ (not_connected s -> kept w (c_world c))
  end.

Lemma not_connected_cases s : not_connected s \/ exists k, s = Connected k.
Proof. destruct s; cbn; eauto. Qed.
Lemma fail_alert_solid {A} c a c' (r : res A) : fail_alert c a = (c', r) -> (a <? 253) = true -> solid r.
Proof.
  unfold fail_alert. destruct (sendAlert c a) as [c1 [u|e| |]] eqn:S; cbn [sbind]; intros H L; injection H as <- <-; auto with firm.
  - now apply solid_alert.
  - unfold sendAlert in S. destruct (writeRecord _ _) as [l [x|e'| |]]; discriminate.
Qed.
Lemma action_alert E now c a c' e : takeAction E now c a = (c', Err e) -> exists n, e = EAlert n /\ (n <? 253) = true.
Proof.
  destruct a; cbn [takeAction].
  - destruct (queueMessage _ _) as [x [|?| |]]; cbn; intros [= _ <-]; eexists; split; reflexivity.
  - destruct (sendQueued _) as [x [|?| |]]; cbn; intros [= _ <-]; eexists; split; reflexivity.
  - destruct (f_rem _); [|intros [= _ <-]; eexists; split; reflexivity]. destruct (layer_rekey _ _ _ _) as [x [|?| |]]; cbn; intros [= _ <-]; eexists; split; reflexivity.
  - destruct (layer_rekey _ _ _ _) as [x [|?| |]]; cbn; intros [= _ <-]; eexists; split; reflexivity.
  - discriminate.
  - destruct (cf_psks _); discriminate.
Qed.
Lemma actions_alert E now l : forall c c' e, takeActions E now c l = (c', Err e) -> exists n, e = EAlert n /\ (n <? 253) = true.
Proof.
  induction l as [|a l IH]; intros c c' e; cbn [takeActions]; [discriminate|]. destruct (takeAction E now c a) as [c1 [u|e1| |]] eqn:T; cbn [sbind]; try discriminate.
  - apply IH.
  - intros [= _ <-]. eapply action_alert; eauto.
Qed.
Lemma on_connected_solid E o c k c' r : on_connected E o c k = (c', r) -> solid r.
Proof.
  unfold on_connected. cbv zeta. destruct (c_isClient _). { destruct (w_early _); intros [= _ <-]; auto with firm. }
  match goal with |- sbind ?t ?f = _ -> _ => assert (firm t) as F; [|destruct t as [c1 r1]] end.
  - destruct (cf_sendSessionTickets _); [|apply firm_pair, solid_ok]. destruct (newTicket _ _ _ _) as [w [acts|e| |]]; try (apply firm_pair; auto with firm).
    destruct (takeActions _ _ _ _) as [c2 [u|e| |]] eqn:T; try (apply firm_pair; auto with firm). apply actions_alert in T. destruct T as (n & -> & L).
    destruct (fail_alert c2 n) as [c3 r3] eqn:F. exact (fail_alert_solid _ _ _ _ F L).
  - unfold firm in F; cbn [snd] in F. destruct r1 as [u|e| |]; cbn [sbind]; intros [= _ <-]; auto with firm.
Qed.
Lemma turn_path (Q : oracle -> Prop) E cfg psks client evs fuel o c s c' r : Q o -> on_path Q E cfg psks client evs c -> c_hState c = Some s -> not_connected s ->
  handshake_turn E fuel o c s = (c', r) -> solid r ->
  match r with Ok (s', _) => on_path Q E cfg psks client (evs ++ turn_events E fuel o c s) c' /\ c_hState c' = Some s' | _ => True end.
Proof.
  intros Qo H S Nc T Sr. pose proof T as T0. apply turn_cases in T. destruct T as (w & rn & N & D).
  destruct r as [[s1 retry1]|e| |]; auto. pose proof (turn_hstate _ _ _ _ _ _ _ _ T0) as S1. split; [|exact S1].
  unfold on_path in H. rewrite S in H. destruct H as (w0 & Hp & Hk). specialize (Hk Nc). assert (path Q E cfg psks client evs s (c_world c)) as Hc by (eapply path_kept; eauto).
  destruct D as [[[] _]|(s' & acts & retry & c1 & -> & Ta & D)].
  pose proof (path_next Q E cfg psks client o fuel evs s _ _ _ _ _ Hc Qo Nc N) as Hn.
  unfold turn_events. rewrite N. cbn [snd]. rewrite queued_sent. unfold on_path. rewrite S1.
  pose proof (kept_actions E (o_ms o) acts (next_stores _ _ _ _ _ _ _ _ _ _ N) (set_world c w)) as Kw. rewrite Ta in Kw. cbn [fst] in Kw.
  destruct D as [(Nc' & -> & D)|(k & r1 & -> & D & Dr)].
  - injection D as <- <-. exists w. split; [exact Hn|]. intros _. exact Kw.
  - destruct r1 as [u|e| |]; try discriminate. injection Dr as -> ->. exists w. split; [exact Hn|]. intros [].
Qed.
Lemma turn_blocked (Q : oracle -> Prop) E cfg psks client evs fuel o c s c' n : on_path Q E cfg psks client evs c -> c_hState c = Some s -> not_connected s ->
  handshake_turn E fuel o c s = (c', Err (EAlert n)) -> n = 254 \/ n = 253 -> on_path Q E cfg psks client evs c' /\ turn_events E fuel o c s = [].
Proof.
  intros H S Nc T Hn. unfold turn_events. revert T. unfold handshake_turn. destruct (next _ _ _ _ _ _) as [w rn] eqn:N. cbn [snd].
  unfold on_path in H. rewrite S in H. destruct H as (w0 & Hp & Hk). specialize (Hk Nc).
  assert (forall A (r : res A), solid r -> r = Err (EAlert n) -> False) as Z.
  { intros A r [Ha Hb] ->. destruct Hn as [->| ->]; auto. }
  destruct rn as [[[s' acts] retry]|e| |]; try discriminate.
  - destruct (takeActions _ _ _ _) as [c1 [u|e| |]] eqn:Ta; try discriminate.
    + set (c2 := set_hState c1 s'). destruct s'; cbn [sbind]; try discriminate. destruct (on_connected E o c2 c0) as [c3 r3] eqn:Oc. apply on_connected_solid in Oc.
      destruct r3 as [u'|e| |]; cbn [sbind]; try discriminate. intros [= <- ->]. exfalso. eapply Z; [exact Oc|reflexivity].
    + apply actions_alert in Ta. destruct Ta as (m & -> & L). intros F. exfalso. pose proof (fail_alert_solid _ _ _ _ F L) as Q'. eapply Z; [exact Q'|reflexivity].
  - destruct e as [a| |]; try discriminate.
    assert (forall c2, c_hState c2 = c_hState c -> kept (c_world c) (c_world c2) -> on_path Q E cfg psks client evs c2) as K.
    { intros c2 E2 K2. unfold on_path. rewrite E2, S. exists w0. split; [exact Hp|]. intros _. eapply kept_trans; eauto. }
    destruct (N.eqb_spec a AlertWouldBlock) as [->|Na].
    + pose proof (next_blocked _ _ _ _ _ _ _ _ (or_introl eq_refl) N) as Kw. destruct (hl_datagram _).
      * pose proof (xframe_timers_run (w_ctx w) (v_grow E) (o_ms o) (w_ctx w) (xframe_refl _)) as F. destruct (checkTimers _ _ _) as [x rx]. unfold all in F; cbn [fst] in F. apply (wx_kind w (set_ctx w x)) in F. destruct rx as [u|e| |]; cbn [sbind or_alert]; try discriminate.
        -- intros [= <- <-]. split; [|reflexivity]. apply K; [reflexivity|]. eapply kept_trans; [exact Kw|]. now repeat split.
        -- intros [= <- Q']. exfalso. destruct Hn as [->| ->]; discriminate Q'.
      * intros [= <- <-]. split; [|reflexivity]. now apply K.
    + destruct (a =? AlertCloseNotify); [intros F; exfalso; pose proof (fail_alert_solid _ _ _ _ F eq_refl) as Q'; eapply Z; [exact Q'|reflexivity]|].
      intros [= <- ->]. split; [|reflexivity]. apply K; [reflexivity|]. exact (next_blocked _ _ _ _ _ _ _ _ Hn N).
Qed.
Lemma fine_cases {A} (r : res A) (r' : res unit) : fine r' -> match r with Ok _ => True | Err e => r' = Err e | Panic => r' = Panic | Fuel => r' = Fuel end ->
  match r with Ok _ => True | Err e => exists n, e = EAlert n /\ (n = 254 \/ n = 253) | _ => False end.
Proof.
  intros [->|[->| ->]] H; destruct r; auto; try discriminate; injection H as <-; eauto.
Qed.
Lemma loop_path (Q : oracle -> Prop) E cfg psks client fuel os : Forall Q os -> forall c s c' r evs, on_path Q E cfg psks client evs c -> c_hState c = Some s ->
  handshake_loop E fuel os c s = (c', r) -> fine r \/ loop_blocked E fuel os c s -> on_path Q E cfg psks client (evs ++ loop_events E fuel os c s) c'.
Proof.
  assert (forall evs c c' (r r' : res unit), on_path Q E cfg psks client evs c -> (c, r') = (c', r) -> on_path Q E cfg psks client (evs ++ []) c') as Z.
  { intros evs c c' r r' H [= <- _]. now rewrite app_nil_r. }
  induction os as [|o os IH]; intros Qs c s c' r evs H S T Fr.
  { destruct s; cbn in *; eapply Z; eauto. }
  destruct (not_connected_cases s) as [Nc|[k ->]]; [|cbn in *; eapply Z; eauto]. inversion Qs as [|? ? Qo Qs']; subst.
  assert (handshake_loop E fuel (o :: os) c s = (call c, '(s, retry) <- handshake_turn E fuel o c s;
    if cf_nonBlocking (c_cfg c) then (c, if retry : bool then alert AlertStatelessRetry else Ok tt) else handshake_loop E fuel os c s)) as Eq.
  { destruct s; try reflexivity. contradiction. }
  rewrite Eq in T. clear Eq.
  assert (loop_events E fuel (o :: os) c s = turn_events E fuel o c s ++ match handshake_turn E fuel o c s with
      | (c, Ok (s, _)) => if cf_nonBlocking (c_cfg c) then [] else loop_events E fuel os c s
      | _ => [] end) as ->.
  { destruct s; try reflexivity. contradiction. }
  cbn [loop_blocked] in Fr. destruct (handshake_turn E fuel o c s) as [c1 r1] eqn:Tn. destruct r1 as [[s1 retry]|e| |]; cbn [sbind] in T; try (destruct Fr as [Fr|[]]).
  - pose proof (turn_path _ _ _ _ _ _ _ _ _ _ _ _ Qo H S Nc Tn (solid_ok _)) as [K S1]. destruct (cf_nonBlocking _).
    + injection T as <- _. now rewrite app_nil_r.
    + rewrite app_assoc. eapply IH; eauto.
  - injection T as <- <-. destruct Fr as [Fr|[Fr|Fr]]; [discriminate| |]; injection Fr as ->;
      destruct (turn_blocked _ _ _ _ _ _ _ _ _ _ _ _ H S Nc Tn) as [K ->]; auto; now rewrite app_nil_r.
  - injection T as <- <-. destruct Fr as [Fr|[Fr|Fr]]; discriminate.
  - injection T as <- <-. destruct Fr as [Fr|[Fr|Fr]]; discriminate.
Qed.

Lemma setup_path (Q : oracle -> Prop) E cfg psks client o c c' r : Q o -> c_isClient c = client -> on_path Q E cfg psks client [] c -> c_hState c = None ->
  handshakeSetup E o c = (c', r) -> solid r /\ (r = Ok tt -> on_path Q E cfg psks client (setup_events E o c) c').
Proof.
  intros Qo R H S. unfold on_path in H. rewrite S in H. destruct H as (_ & Hc & Hp & Hk). unfold handshakeSetup, setup_events.
  set (c1 := set_world c (world_init (c_world c))). cbv zeta.
  assert (c_cfg c1 = cfg_init cfg) as C1. { unfold c1, c_cfg, world_init. cbn. unfold c_cfg in Hc. now rewrite Hc. }
  assert (w_psks (c_world c1) = start_psks cfg psks) as P1.
  { unfold c1, world_init, start_psks. cbn. unfold c_cfg in Hc. rewrite Hc. destruct (cf_psks cfg); [exact Hp|reflexivity]. }
  assert (w_kind (c_world c1) = (cf_useDTLS cfg, cf_useDTLS cfg)) as K1.
  { rewrite <- Hk. unfold c1, world_init, w_kind. cbn. destruct (cf_psks _); reflexivity. }
  change (c_isClient c1) with (c_isClient c). rewrite R. destruct client.
  - pose proof (firm_client_start (v_prims E) o (c_world c1) (mkCst (cf_serverName (c_cfg c1)) (cf_nextProtos (c_cfg c1)) no_params None None None)) as F.
    destruct (client_start _ _ _ _) as [w [[[s acts] rt]|e| |]] eqn:Cs; cbn [sbind]; unfold firm in F; cbn [snd] in F;
      try (intros [= <- <-]; split; [first [exact (solid_err _ F)|now split]|discriminate]).
    pose proof (path_client Q E cfg psks o (c_world c1) w s acts rt Qo C1 P1 K1 Cs) as Hpath.
    assert (forallb (fun a => negb (stores a)) acts = true) as St.
    { apply client_start_ok in Cs. destruct Cs as (ws & ch & sending & k & _ & _ & -> & _). destruct sending; reflexivity. }
    pose proof (kept_actions E (o_ms o) acts St (set_world c1 w)) as Kw. pose proof (solid_actions E (o_ms o) acts (set_world c1 w)) as Sa.
    destruct (takeActions _ _ _ _) as [c2 [u|e| |]] eqn:Ta; cbn [sbind fst snd] in *; intros [= <- <-]; (split; [auto with firm|]); try discriminate.
    intros _. rewrite queued_sent. unfold on_path. cbn [set_hState c_hState]. exists w. split; [exact Hpath|]. intros _. exact Kw.
  - assert (forall w, w_cfg w = cfg_init cfg \/ (cf_cookieProtector cfg = None /\ exists p, w_cfg w = set_protector (cfg_init cfg) (Some p)) -> w_psks w = start_psks cfg psks -> w_kind w = w_kind (c_world c1) ->
      on_path Q E cfg psks false [] (set_hState (set_world c1 w) SStart)) as K.
    { intros w Hw Hq Hr. rewrite K1 in Hr. unfold on_path. cbn. exists w. split; [now apply path_server|]. intros _. apply kept_refl. }
    assert (on_path Q E cfg psks false [] (set_hState c1 SStart)) as K0. { apply (K (c_world c1)); auto. }
    destruct (cf_cookieProtector (c_cfg c1)) eqn:Cp; [intros [= <- <-]; split; [apply solid_ok|intros _; exact K0]|]. destruct (cf_requireCookie _); [|intros [= <- <-]; split; [apply solid_ok|intros _; exact K0]].
    destruct (cf_nonBlocking _); [intros [= <- <-]; split; [now split|discriminate]|].
    destruct (o_protector o) as [p|]; intros [= <- <-]; (split; [now split|]); try discriminate. intros _. apply K; [|exact P1|reflexivity]. right. split; [unfold c_cfg in Cp, C1; rewrite C1 in Cp; exact Cp|].
    exists p. exact (f_equal (fun d => set_protector d (Some p)) C1).
Qed.

(** ** Histories are paths *)

Lemma hstate_post E fuel o : forall c f, all (fun c' => c_hState c' = c_hState c) (post_messages E fuel o c f).
Proof.
  induction fuel as [|fuel IH]; intros c f; destruct f as [|ty rest]; try reflexivity. cbn [post_messages].
  destruct (_ <? _)%nat; [reflexivity|]. destruct (_ <? _)%nat; [reflexivity|]. set (hm := mkHm _ _ _ _ _ _ _).
  destruct (processMessage _ _ _ _ _ _) as [w [[s acts]|e| |]]; try reflexivity.
  - pose proof (cframe_actions E (o_ms o) (set_world c w) acts (set_world c w) (cframe_refl _)) as Q. destruct (takeActions _ _ _ _) as [c2 r2].
    destruct Q as (_ & _ & Q & _). cbn in Q. destruct r2 as [u|e| |]; try exact Q.
    + eapply all_imp; [|apply IH]. cbv beta. intros c3 ->. exact Q.
    + destruct e; try exact Q. eapply all_imp; [|apply cframe_fail_eof, cframe_refl]. intros c3 (_ & _ & K & _). congruence.
  - destruct e; try reflexivity. eapply all_imp; [|apply cframe_fail_eof, cframe_refl]. intros c3 (_ & _ & K & _). exact K.
Qed.
Lemma hstate_consume E o c : all (fun c' => c_hState c' = c_hState c) (consumeRecord E o c).
Proof.
  unfold consumeRecord. destruct (readRecord (c_in c)) as [l r]. apply all_bind; [reflexivity|]. intros c1 pt P _. apply pair_ok in P. destruct P as [-> _].
  assert (forall A a, all (fun c' => c_hState c' = c_hState c) (fail_eof (A := A) (upd_in c l) a)) as K.
  { intros A a. eapply all_imp; [|apply cframe_fail_eof, cframe_refl]. intros c3 (_ & _ & Q & _). exact Q. }
  destruct (Byte.eqb _ _); [apply (hstate_post E _ o (upd_in c l))|]. destruct (Byte.eqb _ _).
  - destruct (p_fragment pt) as [|x [|y [|z f]]]; try apply K. destruct (_ =? _); [reflexivity|]. destruct (_ =? _); [reflexivity|]. destruct (_ =? _); [reflexivity|apply K].
  - destruct (Byte.eqb _ _).
    + destruct (negb _); [reflexivity|]. destruct (processAck _ _ _) as [x r2]. reflexivity.
    + destruct (Byte.eqb _ _); reflexivity.
Qed.
Lemma hstate_read_loop E os : forall c n, all (fun c' => c_hState c' = c_hState c) (read_loop E os c n).
Proof.
  induction os as [|o os IH]; intros c n; cbn [read_loop]; destruct (c_readBuffer c); try reflexivity.
  pose proof (hstate_consume E o c) as Kc. destruct (consumeRecord E o c) as [c1 r]. unfold all in Kc; cbn [fst] in Kc.
  assert (all (fun c' => c_hState c' = c_hState c) (read_loop E os c1 n)) as K. { eapply all_imp; [|apply IH]. cbv beta. congruence. }
  destruct r as [u|e| |]; try exact Kc; [exact K|]. destruct (_ || _); [exact Kc|exact K].
Qed.
Definition same_run (c c' : conn) : Prop := c_hState c' = c_hState c /\ (is_connected c = false -> kept (c_world c) (c_world c')).
Lemma same_run_refl c : same_run c c.
Proof. split; [reflexivity|]. intros _. apply kept_refl. Qed.
Lemma same_write_loop fuel : forall c b sent, same_run c (fst (write_loop fuel c b sent)).
Proof.
  induction fuel as [|fuel IH]; intros c b sent; destruct b as [|x b]; try apply same_run_refl. cbn [write_loop].
  set (pt := mkPt _ _ _ _). destruct (writeRecord _ pt) as [l r]. assert (same_run c (upd_out c l)) as K. { split; [reflexivity|]. intros _. now repeat split. }
  destruct r; try exact K. match goal with |- same_run c (fst (write_loop _ _ ?b' ?n')) => destruct (IH (upd_out c l) b' n') as [A B] end. split; [exact A|].
  intros Hc. eapply kept_trans; [apply K; exact Hc|]. apply B. exact Hc.
Qed.
Lemma other_run E cfg client c c' : inv cfg client c -> other_use E c c' -> same_run c c'.
Proof.
  intros I U. destruct U.
  - unfold read. destruct (is_connected c) eqn:K; cbn [negb].
    + rewrite (handshake_complete _ _ _ _ (complete_connected _ _ _ I K)). cbn [sbind]. split; [|congruence].
      destruct (_ =? _)%nat; [reflexivity|]. assert (forall c1, c_hState c1 = c_hState c -> c_hState (fst (read_loop E os c1 n)) = c_hState c) as Z.
      { intros c1 <-. apply (hstate_read_loop E os c1 n). }
      destruct (cf_useDTLS _); [|now apply Z]. destruct os as [|o os]; [reflexivity|]. destruct (checkTimers _ _ _) as [x [u|e| |]]; cbn [sbind or_alert]; try reflexivity. now apply Z.
    + destruct (c_isClient c); [apply same_run_refl|]. destruct (negb _); [apply same_run_refl|]. destruct (w_early _); [apply same_run_refl|].
      split; [reflexivity|]. intros _. now repeat split.
  - unfold write. destruct (negb _); [apply same_run_refl|]. apply same_write_loop.
  - unfold sendKeyUpdate. destruct (c_complete c) eqn:Cc; cbn [negb]; [|apply same_run_refl]. rewrite (inv_complete _ _ _ I) in Cc. split; [|congruence].
    destruct (keyUpdate _ _ _ _) as [[w s] x]. set (c1 := set_state (set_world c w) s).
    assert (forall c2 a e, c_hState c2 = c_hState c -> c_hState (fst (call c2, _ <- sendAlert c2 a; (c2, Err (A := unit) e))) = c_hState c) as K.
    { intros c2 a e H. pose proof (cframe_alert c2 c2 a (cframe_refl _)) as Q. destruct (sendAlert c2 a) as [c3 [u|e'| |]]; destruct Q as (_ & _ & Q & _); cbn [fst sbind] in *; congruence. }
    destruct x as [acts|e| |]; try reflexivity; [|destruct e; try reflexivity; now apply K].
    pose proof (cframe_actions E (o_ms o) c1 acts c1 (cframe_refl _)) as Q. destruct (takeActions _ _ _ _) as [c2 r2]. destruct Q as (_ & _ & Q & _). cbn [fst] in Q.
    destruct r2 as [u|e| |]; try exact Q. destruct e; try exact Q. now apply K.
  - split; [reflexivity|]. intros _. now repeat split.
  - split; [reflexivity|]. intros _. now repeat split.
  - split; [reflexivity|]. intros _. now repeat split.
Qed.
Lemma other_path (Q : oracle -> Prop) E cfg psks client evs cfg0 client0 c c' : inv cfg0 client0 c -> on_path Q E cfg psks client evs c -> other_use E c c' -> on_path Q E cfg psks client evs c'.
Proof.
  intros I H U. destruct (other_run _ _ _ _ _ I U) as [S K]. unfold on_path in *. rewrite S. unfold is_connected in K. destruct (c_hState c) as [s|].
  - destruct H as (w & Hp & Hk). exists w. split; [exact Hp|]. intros Nc. eapply kept_trans; [apply Hk; exact Nc|]. apply K. destruct s; try reflexivity. contradiction.
  - destruct (K eq_refl) as (_ & K1 & K2 & K3). destruct H as (-> & H1 & H2 & H3). split; [reflexivity|]. unfold c_cfg in *. repeat split; congruence.
Qed.
Lemma other_api E c c' : other_use E c c' -> api E c c'.
Proof. intros []; constructor. Qed.
Lemma steady_used (Q : oracle -> Prop) E c0 evs c : steady Q E c0 evs c -> used E c0 c.
Proof.
  intros H. induction H as [|fuel os evs c c' r _ IH _ T _|evs c c' _ IH U].
  - constructor.
  - econstructor; [exact IH|]. change c' with (fst (c', r)). rewrite <- T. constructor.
  - econstructor; [exact IH|]. now apply other_api.
Qed.
Theorem steady_path (Q : oracle -> Prop) E cfg psks client input evs c : steady Q E (newConn cfg psks client input) evs c -> on_path Q E cfg psks client evs c.
Proof.
  intros H. induction H as [|fuel os evs c c' r H IH Qs T Fr|evs c c' H IH U].
  - repeat split.
  - apply steady_used, inv_used in H. unfold handshake, handshake_events in *. destruct (c_complete c); [injection T as <- _; now rewrite app_nil_r|].
    destruct (c_hState c) as [s|] eqn:S; [unfold blocked in Fr; rewrite S in Fr; eapply loop_path; eauto|]. destruct os as [|o os]; [injection T as <- _; now rewrite app_nil_r|]. inversion Qs as [|? ? Qo Qs']; subst.
    assert (evs = []) as ->. { unfold on_path in IH. rewrite S in IH. apply IH. } cbn [app].
    unfold blocked in Fr. rewrite S in Fr. destruct (handshakeSetup E o c) as [c1 r1] eqn:Ts. destruct (setup_path _ _ _ _ _ _ _ _ _ Qo (inv_role _ _ _ H) IH S Ts) as [Sr K].
    destruct r1 as [[]|e| |]; cbn [sbind] in T; try (destruct Fr as [Fr|[]]).
    + specialize (K eq_refl). destruct (_ && _); [injection T as <- _; now rewrite app_nil_r|].
      destruct (c_hState c1) as [s|] eqn:S1; [eapply loop_path; eauto|]. injection T as <- _. now rewrite app_nil_r.
    + injection T as <- <-. exfalso. destruct Sr as [Sa Sb]. destruct Fr as [Fr|[Fr|Fr]]; [discriminate| |]; injection Fr as ->; contradiction.
    + injection T as <- <-. destruct Fr as [Fr|[Fr|Fr]]; discriminate.
    + injection T as <- <-. destruct Fr as [Fr|[Fr|Fr]]; discriminate.
  - apply steady_used, inv_used in H. eapply other_path; eauto.
Qed.
