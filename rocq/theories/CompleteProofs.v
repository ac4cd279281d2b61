(** Two ends that suit each other, over a stream: no call of [Handshake] fails. *)
From Verif Require Import Base Syntax Frame FrameProofs Record RecordSpec RecordProofs RecordProofs2 HandshakeProofs Timer Handshake DtlsProofs Crypto CryptoSpec CryptoProofs Messages MessageProofs MessageProofs3 Pki Negotiation NegotiationProofs Machine MachineProofs Cookie Client Server StepProofs Conn ConnSpec ConnProofs EarlyProofs RunSpec RunProofs TraceProofs SessionSpec SessionProofs HelloProofs ClientRun ClientSession ServerRun ServerSession AgreeSpec AgreeProofs JointSpec ChannelSpec ChannelProofs WireProofs StillProofs PipeProofs MadeProofs TurnProofs HalfProofs JointHello TicketProofs JointProofs CompleteSpec CrashSpec BackProofs ForwardProofs.
Import FrameProofs.

(** ** Actions that do not fail *)

(** Under keys a record takes 17 bytes less. *)
Definition room (r : rcore) (m : hmsg) : Prop := c_aead (cur r) = None \/ len (hm_body m) <= 16363.

(** What cannot be sent because no record number is left. *)
Lemma protect_worn w pt : wr_ok w -> match protect w (r_cipher w) pt 0 with Panic => 2 ^ 48 - 1 <= c_seq (cur w) | Fuel => False | _ => True end.
Proof.
  intros (D & R & C & K). unfold protect. fold (cur w). rewrite D. destruct (match c_aead (cur w) with Some _ => _ | None => _ end) as [[hd ct]|e| |] eqn:Em; cbn [bind]; [|exact I| |].
  - destruct (_ <? _); [exact I|]. unfold incrementSequenceNumber. destruct (N.leb_spec (2 ^ 48 - 1) (c_seq (cur w))); cbn [bind]; [assumption|exact I].
  - exfalso. destruct (c_aead (cur w)) as [k|]; [|discriminate]. destruct K as [_ Iv]. cbn [recordHeader bind] in Em. unfold encrypt in Em. rewrite R in Em. unfold computeNonce in Em.
    destruct (Nat.ltb_spec (List.length (c_iv (cur w))) 8); [lia|discriminate].
  - exfalso. destruct (c_aead (cur w)) as [k|]; [|discriminate]. cbn [recordHeader bind] in Em. unfold encrypt in Em. rewrite R in Em. unfold computeNonce in Em.
    destruct (_ <? _)%nat; discriminate.
Qed.
Lemma fragment_calm x m start x1 r : tx_ok x -> hm_datagram m = false -> room (l_core (outl x)) m -> writeFragment x m start (hl_max (x_out x)) = (x1, r) ->
  match r with Ok p => ((tx_ok x1 /\ room (l_core (outl x1)) m) /\ x_in x1 = x_in x) /\ ((start < List.length (hm_body m))%nat -> (start < snd p)%nat) | Panic => worn_out (outl x1) | _ => False end.
Proof.
  intros (D & Se & Q & Mx & W) Md Ro. unfold writeFragment. rewrite Md, Mx. assert (exists big, big = N.to_nat 16384 /\ N.of_nat big = 16384) as (big & Eb & Nb) by (exists (N.to_nat 16384); split; [reflexivity|apply N2Nat.id]). rewrite <- Eb. set (hl := if (start =? 0)%nat then handshakeHeaderLen false else 0%nat).
  assert (hl <= 4)%nat as Hl by (unfold hl; destruct (start =? 0)%nat; cbn; lia).
  destruct (Nat.leb_spec big hl) as [Lb|Lb]; [exfalso; lia|]. rewrite Se, fragmentAcked_nil. rewrite D. cbv zeta.
  set (body := firstn _ _). set (buf := if (0 <? hl)%nat then _ else _).
  assert (List.length body <= big - hl /\ List.length body <= List.length (hm_body m))%nat as [B1 B2].
  { unfold body. rewrite firstn_length, skipn_length. split; lia. }
  assert (List.length buf <= hl + List.length body)%nat as Bl.
  { unfold buf, hl. destruct (start =? 0)%nat; cbn [Nat.ltb Nat.leb handshakeHeaderLen]; [|lia]. unfold hm_marshal. cbn [hm_type hm_length hm_datagram hm_body]. rewrite ?app_length, ?be_length. cbn [List.length]. lia. }
  pose proof (protect_worn _ (mkPt rtHandshake 0 0 buf) W) as Wn. destruct W as (Wd & Wr & Wc & Wk). unfold writeRecord, writeRecordWithPadding. destruct (protect _ _ _ _) as [[rec c']|e| |] eqn:Ep.
  - intros [= <- <-]. cbn [bind]. assert (c_aead c' = c_aead (cur (l_core (outl x))) /\ c_iv c' = c_iv (cur (l_core (outl x)))) as [Ea Ei].
    { unfold protect in Ep. fold (cur (l_core (outl x))) in Ep. destruct (match c_aead _ with Some _ => _ | None => _ end) as [[hd ct]|e| |]; cbn [bind] in Ep; try discriminate.
      destruct (_ <? _); [discriminate|]. unfold incrementSequenceNumber in Ep. destruct (_ <=? _); cbn [bind] in Ep; [discriminate|]. injection Ep as _ <-. split; reflexivity. }
    split; [split; [split|reflexivity]|intros Ls; cbn [snd]; lia].
    + split; [exact D|]. split; [exact Se|]. split; [exact Q|]. split; [exact Mx|]. cbn [x_out set_out set_conn hl_conn l_core]. split; [exact Wd|]. split; [exact Wr|]. split; [now apply cur_ok_set|].
      rewrite cur_set by exact Wc. rewrite Ea. destruct (c_aead (cur (l_core (outl x)))) as [k|] eqn:Ek0; [|exact I]. unfold keyed_cs in *. rewrite Ea, Ei. rewrite Ek0 in Wk. exact Wk.
    + unfold room in *. cbn [x_out set_out set_conn hl_conn l_core]. rewrite cur_set by exact Wc. now rewrite Ea.
  - intros [= <- <-]. cbn [bind]. unfold protect in Ep. fold (cur (l_core (outl x))) in Ep. rewrite Wd in Ep. unfold room in Ro. destruct (c_aead (cur (l_core (outl x)))) as [k|] eqn:Ek.
    + destruct Wk as ((k' & Ek' & [_ Ls] & Ov) & Iv). rewrite Ek in Ek'. injection Ek' as <-. destruct Ro as [|Ro]; [discriminate|]. cbn [recordHeader bind] in Ep. unfold encrypt in Ep. rewrite Wr in Ep.
      destruct (computeNonce _ _) as [nc|e1| |] eqn:En; cbn [bind] in Ep; [|unfold computeNonce in En; destruct (List.length (c_iv _) <? 8)%nat in En; cbv zeta in En; discriminate En|discriminate Ep|discriminate Ep].
      destruct (N.ltb_spec maxFragmentLen (len (seal k nc ([rtApplicationData] ++ be 2 (r_version (l_core (outl x))) ++ be 2 (N.of_nat (List.length (p_fragment (mkPt rtHandshake 0 0 buf)) + 1 + 0 + overhead k)))  (p_fragment (mkPt rtHandshake 0 0 buf) ++ [rtHandshake] ++ repeat x00 0)))) as [Lt|Ge].
      * unfold len, maxFragmentLen in Lt. rewrite Ls in Lt. cbn [p_fragment repeat List.app] in Lt. rewrite app_length in Lt. cbn [List.length] in Lt. unfold len in Ro. lia.
      * match type of Ep with (if ?a then _ else _) = _ => destruct a eqn:Ec end; [apply N.ltb_lt in Ec; exact (N.lt_irrefl _ (N.lt_le_trans _ _ _ Ec Ge))|].
        unfold incrementSequenceNumber in Ep. destruct (_ <=? _); discriminate.
    + cbn [recordHeader bind Nat.ltb Nat.leb p_fragment] in Ep. destruct (N.ltb_spec maxFragmentLen (len buf)) as [Lt|Ge].
      * unfold len, maxFragmentLen in Lt. lia.
      * unfold incrementSequenceNumber in Ep. destruct (_ <=? _); discriminate.
  - intros [= <- <-]. exact Wn.
  - contradiction.
Qed.
Lemma write_calm fuel : forall x m start n x1 r, tx_ok x -> hm_datagram m = false -> room (l_core (outl x)) m -> (start = 0 \/ start < List.length (hm_body m))%nat -> (List.length (hm_body m) < fuel + start)%nat -> writeMessage_loop fuel x m start n = (x1, r) ->
  match r with Ok _ => (tx_ok x1 /\ room (l_core (outl x1)) m) /\ x_in x1 = x_in x | Panic => worn_out (outl x1) | _ => False end.
Proof.
  induction fuel as [|fuel IH]; intros x m start n x1 r T Md Ro St Fu; cbn [writeMessage_loop]; [exfalso; lia|].
  destruct (writeFragment x m start (hl_max (x_out x))) as [x2 r2] eqn:Ef. apply fragment_calm in Ef; auto. destruct r2 as [[wrote nx]|e| |]; cbn [sbind]; [|contradiction|intros [= <- <-]; exact Ef|contradiction].
  destruct Ef as [[[T2 R2] X2] Nx]. cbn [snd] in Nx. destruct (Nat.leb_spec (List.length (hm_body m)) nx) as [Ln|Ln]; [intros [= <- <-]; auto|]. intros H. apply IH in H; auto; [|lia]. destruct r; try exact H. split; [apply H|]. rewrite <- X2. apply H.
Qed.
Lemma queue_calm x m x1 r : tx_ok x -> tls_msg m -> room (l_core (outl x)) m -> queueMessage x m = (x1, r) -> match r with Ok _ => tx_ok x1 /\ x_in x1 = x_in x | Panic => worn_out (outl x1) | _ => False end.
Proof.
  intros T (Md & _ & _ & _ & Ml) Ro. unfold queueMessage. rewrite (proj1 T). cbn [writeMessages]. unfold writeMessage.
  destruct (N.ltb_spec maxHandshakeMessageLen (len (hm_body m))) as [L|L]; [unfold maxHandshakeMessageLen in L; change (2 ^ 24) with 16777216 in Ml; lia|].
  destruct (writeMessage_loop _ _ _ _ _) as [x2 r2] eqn:Ew. apply write_calm in Ew; auto; [|lia]. destruct r2 as [n|e2| |]; cbn [sbind bind]; intros [= <- <-]; try exact Ew. destruct Ew as [[A _] B]. auto.
Qed.

Section Calm.
Variable E : env.
Hypothesis gcm : gcm_ok E.
Notation P := (v_prims E).

Definition key_fits (k : keyset) : Prop := cipherSuiteMap (s_id (k_suite k)) <> None /\ let n := List.length (k_key k) in ((n =? 16) || (n =? 24) || (n =? 32))%nat = true.
Definition rekeys_in (a : action) : bool := match a with RekeyIn _ _ => true | _ => false end.
Definition act_calm (a : action) : Prop :=
  match a with QueueHandshakeMessage m => len (hm_body m) <= 16363 | RekeyIn _ k | RekeyOut _ k => key_fits k | _ => True end.
Lemma rekey_calm l e k l' r : key_fits k -> layer_rekey E l e k = (l', r) -> r = Ok tt.
Proof. unfold layer_rekey, key_fits. cbv zeta. intros [K ->]. destruct (cipherSuiteMap _); [|congruence]. now intros [= _ <-]. Qed.
Definition stores (a : action) : bool := match a with StorePSK _ => true | _ => false end.
Lemma act_tx now c a c' r : tx_ok (c_ctx c) -> action_ok a -> act_calm a -> cf_useDTLS (c_cfg c) = false -> (rekeys_in a = true -> f_rem (hl_frame (x_in (c_ctx c))) = []) ->
  (stores a = true -> cf_psks (c_cfg c) <> None) ->
  takeAction E now c a = (c', r) -> match r with Ok _ => tx_ok (c_ctx c') /\ hl_frame (x_in (c_ctx c')) = hl_frame (x_in (c_ctx c)) /\ c_cfg c' = c_cfg c | Panic => worn_out (c_out c') | _ => False end.
Proof.
  intros T Ao Ac Dt Fr Sp Ta. destruct a as [m| |ep k|ep k|sq|p]; cbn [takeAction act_calm action_ok rekeys_in stores] in *.
  - destruct (queueMessage (c_ctx c) m) as [x q] eqn:Q. apply queue_calm in Q; [|exact T|exact Ao|right; exact Ac]. injection Ta as <- <-. destruct q; cbn [or_alert]; try exact Q. change (c_ctx (upd_ctx c x)) with x. destruct Q as [A ->]. auto.
  - pose proof T as (T1 & T2 & T3 & T4 & T5). unfold sendQueued in Ta. rewrite T3 in Ta. cbn [writeMessages] in Ta. rewrite T1 in Ta. cbn [or_alert sbind] in Ta.
    change (c_cfg (upd_ctx c (clearQueued (c_ctx c)))) with (c_cfg c) in Ta. rewrite Dt in Ta. injection Ta as <- <-. split; [|auto]. split; [exact T1|]. split; [exact T2|]. split; [reflexivity|]. split; [exact T4|exact T5].
  - rewrite Fr in Ta by reflexivity. destruct (layer_rekey E (c_in c) ep k) as [l1 q] eqn:R. injection Ta as <- <-. pose proof (rekey_calm _ _ _ _ _ Ac R) as ->. cbn [or_alert].
    apply rekeyed in R; [|reflexivity]. subst l1. split; [exact T|]. split; reflexivity.
  - destruct (layer_rekey E (c_out c) ep k) as [l1 q] eqn:R. injection Ta as <- <-. pose proof (rekey_calm _ _ _ _ _ Ac R) as ->. cbn [or_alert].
    apply rekeyed in R; [|reflexivity]. subst l1. split; [|split; reflexivity]. destruct T as (T1 & T2 & T3 & T4 & T5). split; [exact T1|]. split; [exact T2|]. split; [exact T3|]. split; [exact T4|]. now apply rekey_wr.
  - destruct Ao.
  - destruct (cf_psks (c_cfg c)); [|destruct (Sp eq_refl eq_refl)]. injection Ta as <- <-. split; [exact T|]. split; reflexivity.
Qed.
Lemma acts_calm now l : forall c c' r, tx_ok (c_ctx c) -> Forall action_ok l -> Forall act_calm l -> cf_useDTLS (c_cfg c) = false ->
  (existsb rekeys_in l = true -> f_rem (hl_frame (x_in (c_ctx c))) = []) -> (existsb stores l = true -> cf_psks (c_cfg c) <> None) ->
  takeActions E now c l = (c', r) -> match r with Ok _ => tx_ok (c_ctx c') /\ c_cfg c' = c_cfg c | Panic => worn_out (c_out c') | _ => False end.
Proof.
  induction l as [|a l IH]; intros c c' r T Fo Fc Dt Fr Sp H; cbn [takeActions] in H; [injection H as <- <-; auto|].
  inversion Fo as [|? ? Ao Fo']; subst. inversion Fc as [|? ? Ac Fc']; subst. destruct (takeAction E now c a) as [c1 q] eqn:Ta.
  apply act_tx in Ta; [|exact T|exact Ao|exact Ac|exact Dt|intros Ra; apply Fr; cbn [existsb]; now rewrite Ra|intros Ra; apply Sp; cbn [existsb]; now rewrite Ra].
  destruct q as [[]|e1| |]; cbn [sbind] in H; [|contradiction|injection H as <- <-; exact Ta|contradiction]. destruct Ta as (T1 & F1 & C1). apply IH in H; auto; try congruence.
  - destruct r; try exact H. destruct H as [A B]. split; [exact A|congruence].
  - intros Ex. rewrite F1. apply Fr. cbn [existsb]. rewrite Ex. apply orb_true_r.
  - intros Ex. rewrite C1. apply Sp. cbn [existsb]. rewrite Ex. apply orb_true_r.
Qed.
(** A result that is no error, and no panic but for want of record numbers. *)
Definition calmly {A} (c : conn) (r : res A) : Prop := match r with Ok _ => True | Panic => worn_out (c_in c) \/ worn_out (c_out c) | _ => False end.
(** A first message, in the clear. *)
Lemma hello_calm now c m c' r : tx_ok (c_ctx c) -> tls_msg m -> clear (c_ctx c) -> cf_useDTLS (c_cfg c) = false ->
  takeActions E now c [QueueHandshakeMessage m; SendQueuedHandshake] = (c', r) -> calmly c' r.
Proof.
  intros T Tm Cl Dt H. cbn [takeActions takeAction] in H. destruct (queueMessage (c_ctx c) m) as [x q] eqn:Q. apply queue_calm in Q; [|exact T|exact Tm|left; exact Cl].
  destruct q as [u|e1| |]; cbn [or_alert sbind] in H; [|contradiction|injection H as <- <-; right; exact Q|contradiction]. destruct Q as [(T1 & T2 & T3 & _) _].
  change (c_ctx (upd_ctx c x)) with x in H. unfold sendQueued in H. rewrite T3 in H. cbn [writeMessages] in H. rewrite T1 in H. cbn [or_alert sbind] in H.
  change (c_cfg (upd_ctx (upd_ctx c x) (clearQueued x))) with (c_cfg c) in H. rewrite Dt in H. injection H as <- <-. exact I.
Qed.
Lemma connected_calm c o k c' r : tx_ok (c_ctx c) -> cf_useDTLS (c_cfg c) = false -> (forall buf, o_ticket o = Some buf -> len buf <= 16000) -> cf_psks (c_cfg c) <> None -> w_early (c_world c) = [] ->
  on_connected E o c k = (c', r) -> calmly c' r.
Proof.
  intros T Dt Bo Ps We H. unfold on_connected in H. cbv zeta in H. change (c_isClient (set_complete c k)) with (c_isClient c) in H. change (w_early (c_world (set_complete c k))) with (w_early (c_world c)) in H.
  destruct (c_isClient c); [rewrite We in H; injection H as <- <-; exact I|].
  set (c0 := set_complete c k) in *. destruct (cf_sendSessionTickets (c_cfg c0)); [|cbn [sbind] in H; injection H as <- <-; exact I].
  destruct (newTicket (v_prims E) o (c_world c0) k) as [w q] eqn:Nt. pose proof (ticket_back _ _ _ _ _ _ Nt) as Tb. apply ticket_made in Nt.
  destruct Nt as [[-> Nr]|(tk & b & buf & -> & -> & Tm & Bu & Sm & Sz)].
  - destruct q as [a|e1| |]; cbn [sbind] in H; try contradiction; [destruct (Nr a eq_refl)|injection H as <- <-; exact I].
  - specialize (Bo _ Bu). match type of H with context [takeActions E _ ?c ?l] => destruct (takeActions E (o_ms o) c l) as [c2 r2] eqn:Ta end.
    apply (acts_calm (o_ms o)) in Ta; [|exact T| | |exact Dt|discriminate|intros _; exact Ps].
    + destruct r2 as [u|e2| |]; cbn [sbind] in H; try contradiction; injection H as <- <-; [exact I|right; exact Ta].
    + constructor; [exact I|]. constructor; [|constructor; [exact I|constructor]]. cbn [action_ok]. unfold tls_msg. cbn [hm_datagram hm_offset hm_length hm_cipher hm_body].
      split; [apply T|]. split; [reflexivity|]. split; [reflexivity|]. split; [reflexivity|]. exact Sm.
    + constructor; [exact I|]. constructor; [|constructor; [exact I|constructor]]. cbn [act_calm hm_body]. lia.
Qed.

(** Reading what is under way panics only for want of record numbers. *)
Lemma frame_kept r h b r1 : handleFrame r false h b = (r1, Panic) -> r1 = r.
Proof.
  unfold handleFrame. destruct h as [|t h]; [congruence|]. destruct (negb _); [discriminate|]. destruct (_ <? _); [discriminate|].
  match goal with |- context [match ?e with _ => _ end] => destruct e as [[[p i] c]|e'| |] end; congruence.
Qed.
Lemma record_worn now x tr ts r' d' x1 : ahead x tr ts r' d' -> waits ts d' -> first_frame (handshakeFraming false) (pending (hl_frame (x_in x))) = None ->
  hl_readRecord now x = (x1, Panic) -> worn_out (hl_conn (x_in x1)).
Proof.
  intros Ah Wt Hf H. pose proof Ah as ((D & Q & (Hc & F & Er) & Fr & Rok) & Hd).
  unfold hl_readRecord in H. rewrite D in H. unfold readRecordE, nextRecord in H. rewrite Hc in H.
  destruct (nextFrame_spec _ (l_in (hl_conn (x_in x))) (l_frame (hl_conn (x_in x))) (recordFraming_lawful (r_datagram (l_core (hl_conn (x_in x))))) F Er)
    as (c' & f' & q & E1 & F' & N' & _ & HH).
  rewrite E1 in H. pose proof Rok as (Dg & Dr & Cr). rewrite Dg in *. fold (rl_data (hl_conn (x_in x))) in HH. destruct HH as [HH|(-> & Hp & _)].
  - apply first_frame_app with (more := tr) in HH. destruct Wt as [(m & ts' & ->)|(-> & ->)].
    2: { apply heads_done in Hd. destruct Hd as (_ & _ & Hd). rewrite Hd in HH. discriminate HH. }
    destruct (heads_partial _ _ _ _ _ _ _ _ Hd Hf) as (hdr & body & d1 & pt & Hff & (O1 & O2) & T & H1). rewrite HH in Hff. injection Hff as -> <-.
    cbv beta iota zeta in H. cbn [l_core l_in l_frame l_out] in H.
    destruct (N.ltb_spec (c_seq (cur (l_core (hl_conn (x_in x))))) (2 ^ 48 - 1)) as [Sq|Sq].
    + specialize (O1 Sq). pose proof (handle_epoch _ _ _ _ _ Dg O1) as Ep. rewrite O1 in H. cbn [l_core l_in l_frame l_out] in H. rewrite T in H.
      change (Byte.eqb rtHandshake rtHandshake) with true in H. change (Byte.eqb rtHandshake rtAck) with false in H.
      change (Byte.eqb rtHandshake rtAlert) with false in H. cbn [orb negb] in H. rewrite after_record_epoch, Ep, N.eqb_refl in H by exact Cr.
      cbn [negb] in H. discriminate H.
    + specialize (O2 Sq). destruct (handleFrame (l_core (hl_conn (x_in x))) false hdr body) as [core y] eqn:Hf2. cbn [snd] in O2. subst y. apply frame_kept in Hf2. subst core. injection H as <-. exact Sq.
  - cbv beta iota zeta in H. discriminate H.
Qed.
Lemma readFrame_worn fuel : forall now x tr ts r' d' x1, ahead x tr ts r' d' -> waits ts d' -> readFrame_loop fuel now x = (x1, Panic) -> worn_out (hl_conn (x_in x1)).
Proof.
  induction fuel as [|fuel IH]; intros now x tr ts r' d' x1 Ah Wt H; cbn [readFrame_loop] in H; [discriminate|].
  assert (Hstep : forall x2, ahead x2 tr ts r' d' ->
    (let h := x_in x2 in
        let '(f, r) := process (handshakeFraming (hl_datagram h)) (hl_frame h) in
        let x3 := set_in x2 (set_frame h f) in
        match r with
        | Err e => if negb (hl_nonblocking (x_in x)) && is_wb e then readFrame_loop fuel now x3 else (x3, Err e)
        | _ => (x3, r)
        end) = (x1, Panic) -> worn_out (hl_conn (x_in x1))).
  { clear H. intros x2 ((D & Q & Wf & Fr & Rok) & Hd) H. cbv zeta in H. rewrite D in H.
    pose proof (process_spec _ _ (handshakeFraming_lawful false) Fr) as P.
    destruct (first_frame (handshakeFraming false) (pending (hl_frame (x_in x2)))) as [[q rest]|] eqn:Ef.
    - destruct P as (f & P & F1 & F2). rewrite P in H. destruct Wt as [(m & ts' & ->)|(-> & ->)].
      2: { apply heads_done in Hd. destruct Hd as (Hd & _). rewrite Hd in Ef. discriminate Ef. }
      destruct (heads_frame _ _ _ _ _ _ _ _ _ _ Hd Ef) as (-> & H1). discriminate H.
    - destruct P as (f & P & F1 & F2 & _). rewrite P in H.
      assert (A3 : ahead (set_in x2 (set_frame (x_in x2) f)) tr ts r' d').
      { split; [split; [exact D|split; [exact Q|split; [exact Wf|split; [exact F1|exact Rok]]]]|].
        cbn [x_in set_in set_frame hl_conn hl_frame]. rewrite F2. exact Hd. }
      destruct (negb (hl_nonblocking (x_in x)) && is_wb WouldBlock); [exact (IH _ _ _ _ _ _ _ A3 Wt H)|discriminate H]. }
  destruct (0 <? needed (hl_frame (x_in x)))%nat eqn:Ne.
  - apply Nat.ltb_lt in Ne. pose proof Ah as ((_ & _ & _ & Fr & _) & _).
    pose proof (needed_none _ _ (handshakeFraming_lawful false) Fr Ne) as Hn.
    destruct (hl_readRecord now x) as [x2 r2] eqn:R. destruct (record_ahead _ _ _ _ _ _ _ _ Ah Wt Hn R) as (Hr & [->|([->| ->] & A2)]).
    + injection H as <-. exact (record_worn _ _ _ _ _ _ _ Ah Wt Hn R).
    + exact (Hstep x2 A2 H).
    + destruct (negb (hl_nonblocking (x_in x)) && is_wb WouldBlock); [exact (Hstep x2 A2 H)|discriminate H].
  - exact (Hstep x Ah H).
Qed.
Lemma read_worn fuel o w tr ts r' d' w1 : ahead (w_ctx w) tr ts r' d' -> waits ts d' -> hr_read fuel o w = (w1, Panic) -> worn_out (hl_conn (x_in (w_ctx w1))).
Proof.
  intros Ah Wt H. unfold hr_read in H. destruct (hr_read_loop fuel fuel (o_ms o) (w_ctx w)) as [x1 r1] eqn:R. injection H as <- ->. cbn [w_ctx set_ctx].
  destruct fuel as [|fuel]; [discriminate R|]. cbn [hr_read_loop] in R. set (fu := Datatypes.S fuel) in *. destruct (readMessage fu (o_ms o) (w_ctx w)) as [x2 r2] eqn:Rm.
  destruct (readMessage_ahead _ _ _ _ _ _ _ _ _ Ah Wt Rm) as (_ & G). pose proof Ah as ((D & Q & _) & Hd).
  destruct r2 as [[hm|]|e| |]; [discriminate R|destruct G as (m & ts' & hm' & [=] & _)|destruct G as (-> & _); discriminate R| |discriminate R].
  injection R as <-. unfold readMessage in Rm. rewrite check_empty, set_queue_same, set_in_same in Rm by exact Q. cbn [sbind] in Rm.
  destruct (readFrame_loop fu (o_ms o) (w_ctx w)) as [x3 r3] eqn:Rf. destruct r3 as [[hdr body]|e| |]; cbn [sbind] in Rm; try discriminate Rm.
  - destruct (readFrame_ahead _ _ _ _ _ _ _ _ _ Ah Wt Rf) as (_ & m1 & ts1 & _ & Eh & ((D2 & _) & _)). injection Eh as -> ->. rewrite D2 in Rm. cbn [message_of app] in Rm. discriminate Rm.
  - injection Rm as <-. exact (readFrame_worn _ _ _ _ _ _ _ _ Ah Wt Rf).
Qed.

(** ** Turns that do not fail *)

Definition step_fine (o : oracle) (c : conn) (r : world * res outcome) : Prop :=
  match r with
  | (w, Ok (s', acts, retry)) => retry = false /\ small (map Sent (sent_of acts)) /\ (forall c1 q, takeActions E (o_ms o) (set_world c w) acts = (c1, q) -> calmly c1 q) /\
      forall c1 k, takeActions E (o_ms o) (set_world c w) acts = (c1, Ok tt) -> s' = Connected k -> forall c2 q, on_connected E o (set_hState c1 s') k = (c2, q) -> calmly c2 q
  | _ => False
  end.
(** What may come of a turn. *)
Definition turn_calm (fuel : nat) (o : oracle) (c : conn) (s : hstate) (c' : conn) (r : res (hstate * bool)) : Prop :=
  match r with
  | Ok (_, retry) => retry = false
  | Err e => e = WouldBlock
  | Panic => worn_out (c_in c') \/ worn_out (c_out c')
  | Fuel => reads s /\ snd (hr_read fuel o (c_world c)) = Fuel
  end.
(** What the end faces: a message or nothing at all, or a step without a message. *)
Definition faces (c : conn) (s : hstate) (tr : bytes) : Prop :=
  (reads s /\ exists ts r' d', ahead (c_ctx c) tr ts r' d' /\ waits ts d') \/ (exists n, s = SNegotiated n) \/ (exists k, s = SWaitFlight2 k).
Definition turn_ok (fuel : nat) (o : oracle) (c : conn) (s : hstate) (tr : bytes) : Prop :=
  (turn_calm fuel o c s (fst (handshake_turn E fuel o c s)) (snd (handshake_turn E fuel o c s)) /\ small (turn_events E fuel o c s)) /\ faces c s tr.

Lemma small_reads fuel o w s l : small l -> small (read_by fuel o w s ++ l).
Proof. intros H. apply small_app. split; [|exact H]. assert (forall p, sent (got p) = []) as G by (intros p; unfold got; destruct (snd p); reflexivity). unfold small, read_by. destruct s; rewrite ?G; try constructor. destruct (read_early fuel w) as [w1 [|e| |]]; rewrite ?G; constructor. Qed.
Lemma turn_fine fuel o c s tr : step_fine o c (next P (v_pki E) o fuel (c_world c) s) -> faces c s tr -> turn_ok fuel o c s tr.
Proof.
  intros F Fa. split; [|exact Fa]. revert F. clear Fa. unfold handshake_turn, turn_events. destruct (next _ _ _ _ _ _) as [w r] eqn:N. cbn [step_fine fst snd]. destruct r as [[[s' acts] retry]|e| |]; intros F; try contradiction.
  destruct F as (-> & Sm & F1 & F2). split; [|rewrite queued_sent; now apply small_reads]. destruct (takeActions _ _ _ _) as [c1 [[]|e| |]] eqn:Ta; cbn [sbind fst snd]; try (destruct (F1 _ _ eq_refl); fail); [|exact (F1 _ _ eq_refl)].
  specialize (F2 c1). cbn zeta.
  destruct s'; cbn [sbind]; try reflexivity. specialize (F2 _ eq_refl eq_refl). destruct (on_connected _ _ _ _) as [c2 [u|e| |]] eqn:Oc; cbn [sbind fst snd]; try (destruct (F2 _ _ eq_refl); fail); [reflexivity|exact (F2 _ _ eq_refl)].
Qed.
Lemma turn_fine_reads fuel o c s tr ts r' d' : reads s -> ahead (c_ctx c) tr ts r' d' -> waits ts d' ->
  (forall m ts' x1, ts = M m :: ts' -> has_read (c_ctx c) x1 -> ahead x1 tr ts' r' d' -> step_fine o c (step_of P (v_pki E) o (set_ctx (c_world c) x1) s (heard m))) ->
  turn_ok fuel o c s tr.
Proof.
  intros Rd Ah Wt F. assert (faces c s tr) as Fa by (left; eauto 8). destruct (hr_read fuel o (c_world c)) as [w1 rr] eqn:R. destruct (read_ahead _ _ _ _ _ _ _ _ _ Ah Wt R) as (x1 & -> & Hr & Rr).
  pose proof (next_step P (v_pki E) o fuel (c_world c) s Rd) as N. rewrite R in N.
  destruct rr as [hm|e| |]; cbn [sbind] in N.
  - destruct Rr as (m & ts' & Et & Eh & A1). apply turn_fine; [|exact Fa]. rewrite N, Eh. apply (F _ _ _ Et Hr A1).
  - destruct Rr as [-> ((D & _) & _)]. split; [|exact Fa]; unfold handshake_turn, turn_events. rewrite N. change (WouldBlock) with (EAlert AlertWouldBlock). cbn [fst snd]. rewrite N.eqb_refl. change (c_ctx (set_world c (set_ctx (c_world c) x1))) with x1. rewrite D.
    split; [|constructor]. reflexivity.
  - split; [|exact Fa]; unfold handshake_turn, turn_events. rewrite N. split; [|constructor]. cbn [fst snd turn_calm]. left. exact (read_worn _ _ _ _ _ _ _ _ Ah Wt R).
  - split; [|exact Fa]; unfold handshake_turn, turn_events. rewrite N. split; [|constructor]. cbn [fst snd turn_calm]. split; [exact Rd|now rewrite R].
Qed.
End Calm.

(** ** Calls of Handshake *)

Section Calls.
Variables (Q : oracle -> Prop) (E : env) (J : list event -> conn -> Prop) (fuel : nat).
Hypothesis turn : forall evs o c s c' r, Q o -> J evs c -> c_hState c = Some s -> not_connected s -> handshake_turn E fuel o c s = (c', r) -> returned r ->
  small (turn_events E fuel o c s) -> J (evs ++ turn_events E fuel o c s) c'.
Hypothesis setup : forall evs o c c', Q o -> J evs c -> c_hState c = None -> handshakeSetup E o c = (c', Ok tt) -> small (setup_events E o c) -> J (evs ++ setup_events E o c) c'.
Variable tr : bytes.
Hypothesis turn_good : forall evs o c s, Q o -> J evs c -> c_hState c = Some s -> not_connected s -> turn_ok E fuel o c s tr.
Hypothesis setup_good : forall evs o c, Q o -> J evs c -> c_hState c = None -> (forall c' q, handshakeSetup E o c = (c', q) -> calmly c' q) /\ small (setup_events E o c).
(** What may come of a call. *)
Definition steady {A} (p : conn * res A) : Prop := match snd p with Ok _ | Fuel => True | Err e => e = WouldBlock | Panic => worn_out (c_in (fst p)) \/ worn_out (c_out (fst p)) end.

Lemma loop_fine os : Forall Q os -> forall c s evs, J evs c -> c_hState c = Some s -> steady (handshake_loop E fuel os c s) /\ small (loop_events E fuel os c s).
Proof.
  assert (forall c (r : res unit), steady (c, r) -> steady (c : conn, r) /\ small []) as Z. { intros c r H. split; [exact H|constructor]. }
  induction os as [|o os IH]; intros Qs c s evs H S.
  - destruct s; cbn [handshake_loop loop_events]; apply Z; exact I.
  - inversion Qs as [|? ? Qo Qs']; subst. destruct (not_connected_cases s) as [Nc|(k & ->)]; [|apply Z; exact I].
    assert (handshake_loop E fuel (o :: os) c s = (call c, '(s, retry) <- handshake_turn E fuel o c s;
      if cf_nonBlocking (c_cfg c) then (c, if retry : bool then alert AlertStatelessRetry else Ok tt) else handshake_loop E fuel os c s)) as El by (destruct s; try reflexivity; contradiction).
    assert (loop_events E fuel (o :: os) c s = turn_events E fuel o c s ++ match handshake_turn E fuel o c s with
      | (c, Ok (s, _)) => if cf_nonBlocking (c_cfg c) then [] else loop_events E fuel os c s | _ => [] end) as Ee by (destruct s; try reflexivity; contradiction).
    rewrite El, Ee. destruct (turn_good _ _ _ _ Qo H S Nc) as [[U Sm] _]. destruct (handshake_turn E fuel o c s) as [c1 rt] eqn:Tn.
    destruct rt as [[s1 rt1]|e| |]; cbn [sbind fst snd turn_calm] in *; try (rewrite app_nil_r; split; [|exact Sm]; [first [exact U|exact I]]).
    pose proof (turn _ _ _ _ _ _ Qo H S Nc Tn I Sm) as J1. destruct (cf_nonBlocking (c_cfg c1)).
    + split; [|now rewrite app_nil_r]. rewrite U. exact I.
    + destruct (IH Qs' _ _ _ J1 (turn_hstate _ _ _ _ _ _ _ _ Tn)) as [A B]. split; [exact A|]. now apply small_app.
Qed.
Lemma setup_hstate o c c' : handshakeSetup E o c = (c', Ok tt) -> exists s, c_hState c' = Some s.
Proof.
  unfold handshakeSetup. cbv zeta. destruct (c_isClient _).
  - destruct (client_start _ _ _ _) as [w [[[s a] b]|e| |]]; cbn [sbind]; try discriminate. destruct (takeActions _ _ _ _) as [c2 [[]|e| |]]; cbn [sbind]; try discriminate. intros [= <-]. now exists s.
  - destruct (cf_cookieProtector _); [intros [= <-]; eexists; reflexivity|]. destruct (cf_requireCookie _); [|intros [= <-]; eexists; reflexivity].
    destruct (cf_nonBlocking _); [discriminate|]. destruct (o_protector o); [|discriminate]. intros [= <-]. eexists; reflexivity.
Qed.
Lemma handshake_fine os : Forall Q os -> forall c evs, J evs c -> steady (handshake E fuel os c) /\ small (handshake_events E fuel os c).
Proof.
  intros Qs c evs H. unfold handshake, handshake_events. destruct (c_complete c); [split; [exact I|constructor]|].
  destruct (c_hState c) as [s|] eqn:S; [now apply (loop_fine os Qs c s evs)|]. destruct os as [|o os]; [split; [exact I|constructor]|].
  inversion Qs as [|? ? Qo Qs']; subst. destruct (setup_good _ _ _ Qo H S) as [F Sm]. destruct (handshakeSetup E o c) as [c1 [[]|e| |]] eqn:Hs; cbn [sbind]; try (destruct (F _ _ eq_refl); fail).
  - destruct (c_isClient c1 && cf_nonBlocking (c_cfg c1)); [split; [exact I|now rewrite app_nil_r]|]. pose proof (setup _ _ _ _ Qo H S Hs Sm) as J1.
    destruct (setup_hstate _ _ _ Hs) as [s S1]. rewrite S1. destruct (loop_fine os Qs' c1 s _ J1 S1) as [A B]. split; [exact A|]. now apply small_app.
  - rewrite app_nil_r. split; [exact (F _ _ eq_refl)|exact Sm].
Qed.
End Calls.
Lemma steady_unfailing {A} (p : conn * res A) : steady p -> unfailing (snd p).
Proof. unfold steady, unfailing. intros H e E. now rewrite E in H. Qed.
