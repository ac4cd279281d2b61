(** Two connected ends stay in step. *)
From Verif Require Import Base Syntax Frame FrameProofs Record RecordSpec RecordProofs RecordProofs2 HandshakeSpec HandshakeProofs Timer Handshake DtlsSpec DtlsProofs DtlsProofs2 Crypto CryptoProofs Messages Pki Negotiation Machine MachineProofs CtxProofs Conn ConnSpec ChannelSpec.

Section Chan.
Variable E : env.
Variable s : suite.
Hypothesis gcm : gcm_ok E.
Hypothesis sized : mac_sized (v_prims E).
Hypothesis known : cipherSuiteMap (s_id s) = Some s.

(** ** Cores *)

Definition rcore_ok (r : rcore) : Prop := r_datagram r = false /\ r_dir r = DirRead /\ cur_ok r.
Lemma rcore_handle r h b core x : handleFrame r false h b = (core, x) -> rcore_ok r -> rcore_ok core.
Proof.
  intros H (D & R & C). pose proof (like_handle r false h b) as L. rewrite H in L. cbn [fst] in L.
  destruct L as (L1 & L2 & L3 & L4 & L5 & L6). unfold rcore_ok, cur_ok in *. rewrite L1, L2, L3, L5. auto.
Qed.
Lemma cur_keyed r sec : cur (keyed E s r sec) =
  mkCs EpochUpdate 0 (k_iv (makeTrafficKeys (v_prims E) s sec)) (Some (v_gcm E (k_key (makeTrafficKeys (v_prims E) s sec)))).
Proof.
  unfold keyed, cur, get_cs, rekey. cbn [r_heap r_cipher]. rewrite app_nth2 by lia. now rewrite Nat.sub_diag.
Qed.
Lemma keyed_cur_ok r sec : cur_ok (keyed E s r sec).
Proof. unfold keyed, rekey, cur_ok. cbn. rewrite app_length. cbn. lia. Qed.
Lemma rcore_keyed r sec : rcore_ok r -> rcore_ok (keyed E s r sec).
Proof. intros (D & R & C). split; [exact D|]. split; [exact R|]. apply keyed_cur_ok. Qed.
Lemma rcore_after fc i r sec : rcore_ok r -> rcore_ok (core_after E s fc i r sec).
Proof. destruct i; cbn [core_after]; auto using rcore_keyed. Qed.

Lemma suite_sizes : s_ivlen s = 12%nat /\ (s_keylen s = 16%nat \/ s_keylen s = 32%nat).
Proof.
  pose proof known as K. unfold cipherSuiteMap in K. destruct (_ =? _); [injection K as K; rewrite <- K; cbn; auto|].
  destruct (_ =? _); [injection K as K; rewrite <- K; cbn; auto|discriminate].
Qed.
Lemma label_length h sec l x n : (n <= 255)%nat -> List.length (hkdfExpandLabel (v_prims E) h sec l x n) = n.
Proof. intros H. unfold hkdfExpandLabel. apply expand_rfc; auto. destruct h; cbn; lia. Qed.
Lemma iv_long sec : (8 <= List.length (k_iv (makeTrafficKeys (v_prims E) s sec)))%nat.
Proof. destruct suite_sizes as [I _]. unfold makeTrafficKeys. cbn [k_iv]. rewrite I, label_length; lia. Qed.
Lemma key_size sec : let n := List.length (k_key (makeTrafficKeys (v_prims E) s sec)) in ((n =? 16) || (n =? 24) || (n =? 32))%nat = true.
Proof. destruct suite_sizes as [_ [I|I]]; unfold makeTrafficKeys; cbn [k_key]; rewrite I, label_length by lia; reflexivity. Qed.

Definition wcore_ok (w : rcore) : Prop := r_datagram w = false /\ r_dir w = DirWrite /\ cur_ok w /\ keyed_cs (cur w).
Lemma wcore_keyed w sec : wcore_ok w -> wcore_ok (keyed E s w sec).
Proof.
  intros (D & R & C & K). split; [exact D|]. split; [exact R|]. split; [apply keyed_cur_ok|]. rewrite cur_keyed.
  split; [|apply iv_long]. cbn [c_aead]. eexists. split; [reflexivity|]. apply gcm.
Qed.

(** ** Writing *)

Lemma write_step l ty frag l' r : wcore_ok (l_core l) -> writeRecord l (mkPt ty 0 0 frag) = (l', r) ->
  (r = Ok tt /\ wcore_ok (l_core l') /\ l_frame l' = l_frame l /\ l_in l' = l_in l /\ l_cached l' = l_cached l /\
     exists rec c', protect (l_core l) (r_cipher (l_core l)) (mkPt ty 0 0 frag) 0 = Ok (rec, c') /\ l_out l' = l_out l ++ [rec] /\
       l_core l' = set_cs (l_core l) (r_cipher (l_core l)) c') \/
  (l' = l /\ exists e, r = Err e /\ 2 ^ 14 < len frag + 17) \/
  (l' = l /\ r = Panic /\ 2 ^ 48 - 1 <= c_seq (cur (l_core l))).
Proof.
  intros W H. destruct W as (D & Dw & C & (k & Ka & (K1 & K2) & Ko) & Kiv). unfold writeRecord, writeRecordWithPadding in H.
  destruct (protect _ _ _ _) as [[rec c']|e| |] eqn:P.
  - injection H as <- <-. left. split; [reflexivity|]. cbn [l_core l_frame l_in l_cached l_out]. split; [|eauto 10].
    pose proof (protect_inv _ _ _ _ _ _ P) as (_ & _ & _ & _ & Hi & _). apply incr_inv in Hi. destruct Hi as [Hseq ->]. fold (cur (l_core l)).
    split; [exact D|]. split; [exact Dw|]. split; [now apply cur_ok_set|]. rewrite cur_set by auto. cbn. unfold keyed_cs. cbn [c_aead c_iv]. split; [|exact Kiv].
    exists k. repeat split; auto.
  - injection H as <- <-. right. left. split; [reflexivity|]. exists e. split; [reflexivity|].
    unfold protect in P. fold (cur (l_core l)) in P. rewrite D, Ka in P. unfold recordHeader, encrypt, computeNonce in P. rewrite Dw in P.
    destruct (Nat.ltb_spec (List.length (c_iv (cur (l_core l)))) 8) as [|_]; [lia|]. cbn [bind p_fragment p_type] in P.
    match type of P with (if ?a <? ?b then _ else _) = _ => destruct (N.ltb_spec a b) as [L|L] end.
    + unfold len in L at 1. rewrite K2, !app_length in L. cbn [List.length repeat] in L. unfold maxFragmentLen in L. unfold len. lia.
    + unfold incrementSequenceNumber in P. destruct (_ <=? _); discriminate.
  - injection H as <- <-. right. right. split; [reflexivity|]. split; [reflexivity|].
    unfold protect in P. fold (cur (l_core l)) in P. rewrite D, Ka in P. unfold recordHeader, encrypt, computeNonce in P. rewrite Dw in P.
    destruct (Nat.ltb_spec (List.length (c_iv (cur (l_core l)))) 8) as [|_]; [lia|]. cbn [bind p_fragment p_type] in P.
    destruct (_ <? _); [discriminate|]. unfold incrementSequenceNumber in P. destruct (N.leb_spec (2 ^ 48 - 1) (c_seq (cur (l_core l)))); [assumption|discriminate].
  - exfalso. unfold protect in P. fold (cur (l_core l)) in P. rewrite D, Ka in P. unfold recordHeader, encrypt, computeNonce in P. rewrite Dw in P.
    destruct (Nat.ltb_spec (List.length (c_iv (cur (l_core l)))) 8) as [|_]; [lia|]. cbn [bind p_fragment p_type] in P.
    destruct (_ <? _); [discriminate|]. unfold incrementSequenceNumber in P. destruct (_ <=? _); discriminate.
Qed.

Lemma flow_snoc fc r sec data items w ws : flow E s fc r sec data items w ws -> forall ty frag rec c' i, rcore_ok r -> wcore_ok w ->
  protect w (r_cipher w) (mkPt ty 0 0 frag) 0 = Ok (rec, c') -> ty <> x00 -> (forall pt, p_type pt = ty -> p_fragment pt = frag -> carries E fc i pt) ->
  flow E s fc r sec (data ++ rec) (items ++ [i]) (core_after E s fc i (set_cs w (r_cipher w) c') ws) (secret_after E s fc i ws).
Proof.
  induction 1 as [r sec w M|r sec data hdr body rest core pt j items w ws Hf Hh Hc Hr IH]; intros ty frag rec c' i R W P T C.
  - cbn [app]. destruct R as (D & Dr & Cr). destruct W as (Dw & Dw' & Cw & (k & Ka & Kok & Ko) & Kiv). destruct M as (M1 & M2 & M3).
    pose proof (protect_inv _ _ _ _ _ _ P) as (_ & _ & _ & _ & Hi & _). apply incr_inv in Hi. destruct Hi as [Hseq Hc']. fold (cur w) in Hseq, Hc'.
    destruct (protect_handle w r (r_cipher w) (mkMsg ty frag 0) rec c' false P) as (hdr & ct & -> & Hff & Hhf).
    { unfold matches. fold (cur w). rewrite D. repeat split; congruence. }
    { exact Dr. }
    { fold (cur w). rewrite Ka. auto. }
    { congruence. }
    eapply flow_cons; [rewrite <- (app_nil_r (hdr ++ ct)), <- D; apply Hff|exact Hhf|apply C; reflexivity|]. destruct i as [d|b|t bd]; cbn [core_after secret_after].
    + constructor. rewrite !cur_set by auto. rewrite Hc'. repeat split; cbn [c_aead c_iv c_seq]; congruence.
    + constructor. rewrite !cur_keyed. repeat split.
    + constructor. rewrite !cur_set by auto. rewrite Hc'. repeat split; cbn [c_aead c_iv c_seq]; congruence.
  - cbn [app]. eapply flow_cons; [apply first_frame_app; exact Hf|exact Hh|exact Hc|].
    apply (IH ty frag rec c' i); auto. apply rcore_after. eapply rcore_handle; eauto.
Qed.

(** ** Reading *)

Lemma read_step fc l more sec items w ws l' r : reader_ok l -> flow E s fc (l_core l) sec (rl_data l ++ more) items w ws -> readRecord l = (l', r) ->
  l_out l' = l_out l /\
  ((r = Err WouldBlock /\ l_core l' = l_core l /\ rl_data l' = rl_data l /\ reader_ok l' /\
    ((List.length (l_in l') < List.length (l_in l))%nat \/ first_frame (recordFraming false) (rl_data l) = None)) \/
   (exists i items' pt, items = i :: items' /\ r = Ok pt /\ carries E fc i pt /\ reader_ok l' /\ (List.length (l_in l') <= List.length (l_in l))%nat /\
      flow E s fc (core_after E s fc i (l_core l') sec) (secret_after E s fc i sec) (rl_data l' ++ more) items' w ws)).
Proof.
  intros ((Hc & F & Er) & D & Dr & Cr) Fl H. unfold readRecord, readRecordE, nextRecord in H. rewrite Hc in H.
  destruct (nextFrame_spec _ (l_in l) (l_frame l) (recordFraming_lawful (r_datagram (l_core l))) F Er) as (c' & f' & x & E1 & F' & N' & Hl & HH).
  rewrite E1 in H. rewrite D in *. fold (rl_data l) in HH. destruct HH as [HH|(-> & Hp & Hcase)].
  - apply first_frame_app with (more := more) in HH. remember (rl_data l ++ more) as data eqn:Ed.
    inversion Fl as [r0 sec0 w0 M|r0 sec0 data0 hdr body rest core pt i items' w0 ws0 Hff Hhf Hca Hrest]; [exfalso; clear Ed; subst data; discriminate HH|].
    subst. rewrite HH in Hff. injection Hff as -> <-. cbv beta iota zeta in H. cbn [l_core l_in l_frame l_out] in H. rewrite Hhf in H. injection H as <- <-.
    cbn [l_out l_core l_in]. split; [reflexivity|]. right. exists i, items', pt. split; [reflexivity|]. split; [reflexivity|]. split; [exact Hca|].
    assert (R : rcore_ok core) by (eapply rcore_handle; [exact Hhf|split; auto]). destruct R as (R1 & R2 & R3).
    split; [split; [split; [reflexivity|split; [cbn [l_core l_frame]; now rewrite R1|exact N']]|cbn [l_core]; auto]|].
    split; [exact Hl|]. unfold rl_data. cbn [l_frame l_in]. exact Hrest.
  - injection H as <- <-. cbn [l_out l_core l_in]. split; [reflexivity|]. left. split; [reflexivity|]. split; [reflexivity|].
    split; [exact Hp|]. split; [split; [split; [reflexivity|split; [cbn [l_core l_frame]; now rewrite D|exact N']]|cbn [l_core]; auto]|].
    destruct Hcase as [Hcase|[-> Hcase]]; [left; exact Hcase|right]. rewrite <- Hp. cbn [data_of]. now rewrite app_nil_r.
Qed.

(** ** Ends *)

Lemma end_out client c l : end_ok s client c -> end_ok s client (upd_out c l).
Proof. intros []. split; assumption. Qed.
Lemma end_in client c l : end_ok s client c -> end_ok s client (upd_in c l).
Proof. intros []. split; assumption. Qed.
Lemma end_buffer client c b : end_ok s client c -> end_ok s client (set_readBuffer c b).
Proof. intros []. split; assumption. Qed.
Lemma end_psks client c p : end_ok s client c -> end_ok s client (set_world c (set_psks (c_world c) p)).
Proof. intros []. split; assumption. Qed.
Lemma end_cts client c x : end_ok s client c -> end_ok s client (set_state c (set_cts (c_state c) x)).
Proof. intros []. split; assumption. Qed.
Lemma end_sts client c x : end_ok s client c -> end_ok s client (set_state c (set_sts (c_state c) x)).
Proof. intros []. split; assumption. Qed.
Definition bump (c : conn) : conn :=
  upd_ctx c (set_out (c_ctx c) (set_queue (x_out (c_ctx c)) ((hl_msgSeq (x_out (c_ctx c)) + 1) mod 2 ^ 32) (hl_queued (x_out (c_ctx c))))).
Lemma end_bump client c : end_ok s client c -> end_ok s client (bump c).
Proof. intros []. split; assumption. Qed.

Ltac ends EO := pose proof (eo_out _ _ _ EO) as eo_out0; pose proof (eo_max _ _ _ EO) as eo_max0; pose proof (eo_sent _ _ _ EO) as eo_sent0;
  pose proof (eo_queued _ _ _ EO) as eo_queued0; pose proof (eo_tls _ _ _ EO) as eo_tls0; pose proof (eo_state _ _ _ EO) as eo_state0;
  pose proof (eo_suite _ _ _ EO) as eo_suite0; pose proof (eo_psks _ _ _ EO) as eo_psks0; pose proof (eo_frame _ _ _ EO) as eo_frame0;
  pose proof (eo_in _ _ _ EO) as eo_in0; pose proof (eo_client _ _ _ EO) as eo_client0; pose proof (eo_complete _ _ _ EO) as eo_complete0; pose proof (eo_connected _ _ _ EO) as eo_connected0.

(** ** Key updates *)

Definition bb (b : bool) : byte := if b then x01 else x00.
Definition ku_num (b : bool) : N := if b then KeyUpdateRequested else KeyUpdateNotRequested.
Definition ku_bytes (b : bool) : bytes := [x18; x00; x00; x01; bb b].
Lemma ku_body parses b : toBody parses x18 [bb b] = Ok (BKeyUpdate (ku_num b)).
Proof. destruct b; vm_compute; reflexivity. Qed.
Lemma ku_made b : body_marshal (BKeyUpdate (ku_num b)) = Ok [bb b].
Proof. destruct b; vm_compute; reflexivity. Qed.
Definition ku_msg (c : conn) (b : bool) : hmsg := mkHm x18 (hl_msgSeq (x_out (c_ctx c))) [bb b] false 0 1 None.
Lemma ku_new client c b : end_ok s client c -> newMessage (c_world c) (BKeyUpdate (ku_num b)) = (c_world (bump c), Ok (ku_msg c b)).
Proof.
  intros EO. ends EO. unfold newMessage, makeMessage. rewrite ku_made. cbn [body_type]. unfold messageFromBody. change (x_out (w_ctx (c_world c))) with (x_out (c_ctx c)).
  rewrite eo_out0. reflexivity.
Qed.

Lemma conn_eta c : upd_out c (c_out c) = c.
Proof. destruct c as [[cfg psks [hin hout sent wait tm to] e h] a b d f g i]. destruct hout. reflexivity. Qed.
Lemma queue_ku client c m b now c' r : end_ok s client c -> wcore_ok (l_core (c_out c)) ->
  hm_type m = x18 -> hm_body m = [bb b] -> hm_length m = 1 -> hm_datagram m = false ->
  takeAction E now c (QueueHandshakeMessage m) = (c', r) ->
  exists l1 r1, writeRecord (c_out c) (mkPt x16 0 0 (ku_bytes b)) = (l1, r1) /\ c' = upd_out c l1 /\
    match r1 with Ok _ => r = Ok tt | Panic => r = Panic | _ => True end.
Proof.
  intros EO W T B L D H. ends EO. cbn [takeAction] in H. unfold queueMessage in H. rewrite eo_out0 in H.
  cbn [writeMessages] in H. unfold writeMessage in H. rewrite B in H. cbn [List.length] in H.
  change (maxHandshakeMessageLen <? len [bb b]) with false in H. cbn [writeMessage_loop] in H.
  unfold writeFragment in H. rewrite D, B, eo_max0, eo_sent0, eo_out0 in H. cbn [Nat.eqb handshakeHeaderLen List.length] in H.
  destruct (Nat.leb_spec (N.to_nat 16384) 4) as [Q|Q]; [lia|]. rewrite fragmentAcked_nil in H. cbn [Nat.ltb Nat.leb] in H.
  replace (Nat.min (1 - 0) (N.to_nat 16384 - 4)) with 1%nat in H by lia. cbn [firstn skipn Nat.add] in H.
  unfold hm_marshal in H. cbn [hm_type hm_length hm_datagram hm_body] in H. rewrite T, L in H.
  change ([x18] ++ be 3 1 ++ [] ++ [bb b]) with (ku_bytes b) in H. change (hl_conn (x_out (c_ctx c))) with (c_out c) in H. change rtHandshake with x16 in H.
  destruct (writeRecord (c_out c) (mkPt x16 0 0 (ku_bytes b))) as [l1 r1]. exists l1, r1. split; [reflexivity|].
  destruct r1 as [u|e| |]; cbn in H; injection H as <- <-; split; reflexivity.
Qed.
Lemma send_none client c now : end_ok s client c -> takeAction E now c SendQueuedHandshake = (c, Ok tt).
Proof.
  intros EO. ends EO. cbn [takeAction]. unfold sendQueued. rewrite eo_queued0. cbn [writeMessages]. rewrite eo_out0. cbn [or_alert sbind].
  unfold clearQueued.
  assert (Q : upd_ctx c (set_out (c_ctx c) (set_queue (x_out (c_ctx c)) (hl_msgSeq (x_out (c_ctx c))) [])) = c).
  { clear - eo_queued0. destruct c as [[cfg psks [hin hout sent wait tm to] e h] a b d f g i]. destruct hout as [n1 n2 n3 n4 n5 q n7 n8].
    cbn in eo_queued0. subst q. reflexivity. }
  rewrite Q, eo_tls0. reflexivity.
Qed.
Lemma rekey_layer l sec : layer_rekey E l EpochUpdate (makeTrafficKeys (v_prims E) s sec) = (upd_core l (keyed E s (l_core l) sec), Ok tt).
Proof.
  unfold layer_rekey. change (k_suite (makeTrafficKeys (v_prims E) s sec)) with s. rewrite known. pose proof (key_size sec) as K. cbv zeta in K. now rewrite K.
Qed.
Lemma send_ku client c m b sec now c' r : end_ok s client c -> wcore_ok (l_core (c_out c)) ->
  hm_type m = x18 -> hm_body m = [bb b] -> hm_length m = 1 -> hm_datagram m = false ->
  takeActions E now c [QueueHandshakeMessage m; SendQueuedHandshake; RekeyOut EpochUpdate (makeTrafficKeys (v_prims E) s sec)] = (c', r) ->
  (r = Ok tt /\ exists l1, writeRecord (c_out c) (mkPt x16 0 0 (ku_bytes b)) = (l1, Ok tt) /\ c' = upd_out c (upd_core l1 (keyed E s (l_core l1) sec))) \/
  (r = Panic /\ c' = c /\ 2 ^ 48 - 1 <= c_seq (cur (l_core (c_out c)))).
Proof.
  intros EO W T B L D H. cbn [takeActions] in H. destruct (takeAction E now c (QueueHandshakeMessage m)) as [c1 r1] eqn:A.
  destruct (queue_ku _ _ _ _ _ _ _ EO W T B L D A) as (l1 & rw & Wr & -> & Hr).
  destruct (write_step _ _ _ _ _ W Wr) as [(-> & _)|[(-> & e & -> & Big)|(-> & -> & Lim)]].
  - subst r1. cbn [sbind] in H. rewrite (send_none client) in H by now apply end_out. cbn [sbind takeAction] in H.
    change (c_out (upd_out c l1)) with l1 in H. rewrite rekey_layer in H. cbn [or_alert sbind] in H. injection H as <- <-. left. split; [reflexivity|].
    exists l1. split; [exact Wr|reflexivity].
  - exfalso. unfold ku_bytes, len in Big. cbn in Big. lia.
  - subst r1. cbn [sbind] in H. injection H as <- <-. right. rewrite conn_eta. auto.
Qed.

Definition st_write (client : bool) (st : connected) : bytes := if client then sc_cts st else sc_sts st.
Definition st_read (client : bool) (st : connected) : bytes := if client then sc_sts st else sc_cts st.
Definition set_write (client : bool) (st : connected) (x : bytes) : connected := if client then set_cts st x else set_sts st x.
Definition set_read (client : bool) (st : connected) (x : bytes) : connected := if client then set_sts st x else set_cts st x.
Lemma end_set_write client c x : end_ok s client c -> end_ok s client (set_state c (set_write client (c_state c) x)).
Proof. destruct client; cbn [set_write]; auto using end_cts, end_sts. Qed.
Lemma end_set_read client c x : end_ok s client c -> end_ok s client (set_state c (set_read client (c_state c) x)).
Proof. destruct client; cbn [set_read]; auto using end_cts, end_sts. Qed.

Definition ku_actions (c : conn) (b : bool) (sec : bytes) : list action :=
  [QueueHandshakeMessage (ku_msg c b); SendQueuedHandshake; RekeyOut EpochUpdate (makeTrafficKeys (v_prims E) s sec)].
Lemma key_update client c st b : end_ok s client c -> sc_isClient st = client -> sc_suite st = s ->
  keyUpdate (v_prims E) (c_world c) st (ku_num b) =
    ((c_world (bump c), set_write client st (next_secret E s client (st_write client st))), Ok (ku_actions c b (next_secret E s client (st_write client st)))).
Proof.
  intros EO C S. unfold keyUpdate. rewrite C, (ku_new _ _ _ EO). unfold ku_actions, next_secret. cbn [bind]. subst s client.
  destruct (sc_isClient st); reflexivity.
Qed.

(** ** One direction *)

Lemma out_item fc a p t l ty frag l1 i a' : direction_ok E s fc a p t l -> writeRecord (c_out a) (mkPt ty 0 0 frag) = (l1, Ok tt) ->
  ty <> x00 -> (forall pt, p_type pt = ty -> p_fragment pt = frag -> carries E fc i pt) ->
  l_core (c_out a') = core_after E s fc i (l_core l1) (write_secret fc a) -> l_out (c_out a') = l_out l1 -> write_secret fc a' = secret_after E s fc i (write_secret fc a) ->
  direction_ok E s fc a' p t (l ++ [i]).
Proof.
  intros (W & R & F) Wr T C K1 K2 K3. destruct (write_step _ _ _ _ _ W Wr) as [(_ & W' & _ & _ & _ & rec & c' & P & O & K)|[(_ & e & [=] & _)|(_ & [=] & _)]].
  split; [|split; [exact R|]].
  - unfold writer_ok. rewrite K1. destruct i; cbn [core_after]; try exact W'. now apply wcore_keyed.
  - rewrite K1, K2, K3, O, concat_app. cbn [concat]. rewrite app_nil_r, !app_assoc, <- (app_assoc (rl_data _)), K.
    apply flow_snoc with (ty := ty) (frag := frag); auto. destruct R as (_ & R). exact R.
Qed.
Lemma out_same fc a p t l a' : direction_ok E s fc a p t l -> c_out a' = c_out a -> write_secret fc a' = write_secret fc a -> direction_ok E s fc a' p t l.
Proof. intros D K1 K2. unfold direction_ok in *. now rewrite K1, K2. Qed.
Lemma in_same fc a p t l p' : direction_ok E s fc a p t l -> c_in p' = c_in p -> read_secret (negb fc) p' = read_secret (negb fc) p -> direction_ok E s fc a p' t l.
Proof. intros D K1 K2. unfold direction_ok in *. now rewrite K1, K2. Qed.
Lemma in_item fc a c t l l' r : direction_ok E s fc a c t l -> readRecord (c_in c) = (l', r) ->
  l_out l' = l_out (c_in c) /\
  ((r = Err WouldBlock /\ (forall c', c_in c' = l' -> read_secret (negb fc) c' = read_secret (negb fc) c -> direction_ok E s fc a c' t l) /\
    ((List.length (l_in l') < List.length (l_in (c_in c)))%nat \/ first_frame (recordFraming false) (rl_data (c_in c)) = None)) \/
   (exists i rest pt, l = i :: rest /\ r = Ok pt /\ carries E fc i pt /\ (List.length (l_in l') <= List.length (l_in (c_in c)))%nat /\
      forall c', c_in c' = upd_core l' (core_after E s fc i (l_core l') (read_secret (negb fc) c)) ->
        read_secret (negb fc) c' = secret_after E s fc i (read_secret (negb fc) c) -> direction_ok E s fc a c' t rest)).
Proof.
  intros (W & R & F) H. destruct (read_step _ _ _ _ _ _ _ _ _ R F H) as (O & [(-> & K1 & K2 & R' & Hcase)|(i & rest & pt & -> & -> & C & R' & Hl & F')]).
  - split; [exact O|]. left. split; [reflexivity|]. split; [|exact Hcase]. intros c' Hc Hs. unfold direction_ok. rewrite Hc, Hs, K1, K2. auto.
  - split; [exact O|]. right. exists i, rest, pt. split; [reflexivity|]. split; [reflexivity|]. split; [exact C|]. split; [exact Hl|].
    intros c' Hc Hs. unfold direction_ok. rewrite Hc, Hs. split; [exact W|]. split; [|exact F'].
    destruct R' as ((R1 & R2 & R3) & R4). pose proof (rcore_after fc i _ (read_secret (negb fc) c) R4) as R5.
    split; [|exact R5]. split; [exact R1|]. split; [|exact R3]. cbn [upd_core l_core l_frame].
    destruct R5 as (D5 & _). destruct R4 as (D4 & _). rewrite D5, <- D4. exact R2.
Qed.

(** ** Both directions, seen from one end *)

Definition reply (i : item) : list item := match i with Update true => [Update false] | _ => [] end.
Definition limit (c : conn) : Prop := 2 ^ 48 - 1 <= c_seq (cur (l_core (c_out c))).
Definition duplex (client : bool) (c p : conn) (tin tout : bytes) (lin lout : list item) : Prop :=
  end_ok s client c /\ direction_ok E s (negb client) p c tin lin /\ direction_ok E s client c p tout lout.
Lemma app_data_app a b : app_data (a ++ b) = app_data a ++ app_data b.
Proof. unfold app_data. now rewrite map_app, concat_app. Qed.
Lemma app_data_one d : app_data [Data d] = d.
Proof. unfold app_data. cbn. now rewrite app_nil_r. Qed.

Lemma write_loop_ok client p tin tout lin : forall fuel c buf k c' n r lout, (List.length buf <= fuel)%nat ->
  duplex client c p tin tout lin lout -> write_loop fuel c buf k = (c', (n, r)) ->
  exists ds, duplex client c' p tin tout lin (lout ++ ds) /\ app_data ds = firstn (n - k) buf /\ (k <= n <= k + List.length buf)%nat /\
    c_readBuffer c' = c_readBuffer c /\
    match r with Ok _ => n = (k + List.length buf)%nat | Err _ => (N.to_nat 16368 <= List.length buf)%nat | Panic => limit c' | Fuel => False end.
Proof.
  induction fuel as [|fuel IH]; intros c buf k c' n r lout Hf D H.
  - destruct buf; [|cbn in Hf; lia]. injection H as <- <- <-. exists []. rewrite app_nil_r, Nat.sub_diag. cbn. split; [exact D|]. repeat split; auto; lia.
  - destruct buf as [|b0 buf0] eqn:Hb.
    { injection H as <- <- <-. exists []. rewrite app_nil_r, Nat.sub_diag. cbn. split; [exact D|]. repeat split; auto; lia. }
    rewrite <- Hb in *. assert (L0 : (0 < List.length buf)%nat) by (subst buf; cbn; lia). clear Hb b0 buf0.
    assert (H' : (let m := Nat.min (N.to_nat maxFragmentLen) (List.length buf) in
      let '(l, r) := writeRecord (c_out c) (mkPt rtApplicationData 0 0 (firstn m buf)) in
      let c := upd_out c l in
      match r with
      | Ok _ => write_loop fuel c (skipn m buf) (k + m)
      | r => (c, (k, r))
      end) = (c', (n, r))). { destruct buf; [cbn in L0; lia|exact H]. } clear H. cbv zeta in H'.
    set (m := Nat.min (N.to_nat maxFragmentLen) (List.length buf)) in *.
    assert (M : (0 < m <= List.length buf)%nat) by (subst m; change maxFragmentLen with 16384; lia).
    destruct (writeRecord (c_out c) (mkPt rtApplicationData 0 0 (firstn m buf))) as [l1 r1] eqn:W.
    destruct D as (EO & Din & Dout). destruct (write_step _ _ _ _ _ (proj1 Dout) W) as [(-> & _)|[(-> & e & -> & Big)|(-> & -> & Lim)]].
    + assert (D1 : duplex client (upd_out c l1) p tin tout lin (lout ++ [Data (firstn m buf)])).
      { split; [now apply end_out|]. split; [eapply in_same; [exact Din|reflexivity|reflexivity]|].
        apply (out_item _ _ _ _ _ _ _ _ _ _ Dout W); try reflexivity; [discriminate|]. intros pt T F. split; [exact T|exact F]. }
      assert (Lk : (List.length (skipn m buf) <= fuel)%nat) by (rewrite skipn_length; lia).
      destruct (IH _ _ _ _ _ _ _ Lk D1 H') as (ds & D2 & A & B & RB & R). exists (Data (firstn m buf) :: ds).
      rewrite <- app_assoc in D2. rewrite skipn_length in *.
      split; [exact D2|]. split; [|split; [lia|split; [exact RB|]]].
      * change (Data (firstn m buf) :: ds) with ([Data (firstn m buf)] ++ ds). rewrite app_data_app, app_data_one, A.
        replace (n - k)%nat with (m + (n - (k + m)))%nat by lia. rewrite <- (firstn_skipn m buf) at 3.
        rewrite firstn_app, firstn_firstn, firstn_length. replace (Nat.min (m + (n - (k + m))) m) with m by lia. do 2 f_equal. lia.
      * destruct r; auto; lia.
    + injection H' as <- <- <-. rewrite conn_eta. exists []. rewrite app_nil_r, Nat.sub_diag. cbn [firstn]. split; [split; auto|].
      split; [reflexivity|]. split; [lia|]. split; [reflexivity|]. unfold len in Big. rewrite firstn_length in Big. lia.
    + injection H' as <- <- <-. rewrite conn_eta. exists []. rewrite app_nil_r, Nat.sub_diag. cbn [firstn]. split; [split; auto|].
      split; [reflexivity|]. split; [lia|]. split; [reflexivity|]. exact Lim.
Qed.

Lemma send_update_ok client c p tin tout lin lout o b c' r : duplex client c p tin tout lin lout -> sendKeyUpdate E o c b = (c', r) ->
  (r = Ok tt /\ duplex client c' p tin tout lin (lout ++ [Update b]) /\ c_readBuffer c' = c_readBuffer c) \/ (r = Panic /\ limit c').
Proof.
  intros (EO & Din & Dout) H. ends EO. unfold sendKeyUpdate in H. rewrite eo_complete0 in H. cbn [negb] in H.
  change (if b then KeyUpdateRequested else KeyUpdateNotRequested) with (ku_num b) in H. rewrite (key_update client c (c_state c) b EO eo_state0 eo_suite0) in H.
  set (sec' := next_secret E s client (st_write client (c_state c))) in *.
  set (c1 := set_state (set_world c (c_world (bump c))) (set_write client (c_state c) sec')) in *.
  assert (E1 : end_ok s client c1).
  { change c1 with (set_state (bump c) (set_write client (c_state (bump c)) sec')). apply end_set_write, end_bump, EO. }
  destruct (takeActions E (o_ms o) c1 (ku_actions c b sec')) as [c2 r2] eqn:A. unfold ku_actions in A.
  apply (send_ku client) with (b := b) in A; try reflexivity; [|exact E1|exact (proj1 Dout)].
  destruct A as [(-> & l1 & W & ->)|(-> & -> & Lim)]; injection H as <- <-.
  - left. split; [reflexivity|]. split; [|reflexivity]. split; [now apply end_out|]. split.
    + eapply in_same; [exact Din|reflexivity|]. rewrite negb_involutive. subst c1. destruct client; reflexivity.
    + apply (out_item _ _ _ _ _ _ _ _ (Update b) _ Dout W).
      * discriminate.
      * intros pt T F. split; [exact T|]. rewrite F. reflexivity.
      * reflexivity.
      * reflexivity.
      * subst c1. destruct client; reflexivity.
  - right. split; [reflexivity|exact Lim].
Qed.

Lemma post_one o k c ty body : cf_useDTLS (c_cfg c) = false -> len body < 2 ^ 24 ->
  post_messages E (S k) o c ([ty] ++ be 3 (len body) ++ body) =
  (let '(w, r) := processMessage (v_prims E) (v_pki E) o (c_world c) (c_state c) (mkHm ty 0 body false 0 0 None) in
   let c := set_world c w in
   match r with
   | Ok (s, actions) =>
       match takeActions E (o_ms o) c actions with
       | (c, Ok _) => (set_state c s, Ok tt)
       | (c, Err (EAlert a)) => fail_eof c a
       | (c, r) => (c, r)
       end
   | Err (EAlert a) => fail_eof c a
   | Err e => (c, Err e)
   | Panic => (c, Panic) | Fuel => (c, Fuel)
   end).
Proof.
  intros T L. assert (L3 : List.length (be 3 (len body)) = 3%nat) by apply be_length.
  assert (U : unbe (be 3 (len body)) = len body) by now apply unbe_be_small.
  remember (be 3 (len body)) as h3 eqn:Eh. clear Eh. cbn [app post_messages]. rewrite T. change (handshakeHeaderLen false) with 4%nat.
  replace (firstn 3 (h3 ++ body)) with h3 by (rewrite firstn_app, L3, firstn_all2 by lia; cbn; now rewrite app_nil_r).
  replace (skipn 4 (ty :: h3 ++ body)) with body by (change (body = skipn 3 (h3 ++ body)); rewrite skipn_app, L3, skipn_all2 by lia; reflexivity).
  rewrite U. replace (N.to_nat (len body)) with (List.length body) by (unfold len; lia).
  destruct (Nat.ltb_spec (List.length (ty :: h3 ++ body)) 4) as [Q|_]; [cbn in Q; rewrite app_length, L3 in Q; lia|].
  rewrite Nat.ltb_irrefl, firstn_all, skipn_all.
  destruct (processMessage _ _ _ _ _ _) as [w r]. destruct r as [[st acts]|e| |]; try reflexivity.
  destruct (takeActions _ _ _ _) as [c1 r1]. destruct r1 as [u|e| |]; try reflexivity. destruct k; reflexivity.
Qed.

Lemma process_update client o c b : end_ok s client c ->
  let st := c_state c in let x := next_secret E s (negb client) (st_read client st) in let y := next_secret E s client (st_write client st) in
  processMessage (v_prims E) (v_pki E) o (c_world c) st (mkHm x18 0 [bb b] false 0 0 None) =
  if b then (c_world (bump c), Ok (set_write client (set_read client st x) y, RekeyIn EpochUpdate (makeTrafficKeys (v_prims E) s x) :: ku_actions c false y))
  else (c_world c, Ok (set_read client st x, [RekeyIn EpochUpdate (makeTrafficKeys (v_prims E) s x)])).
Proof.
  intros EO st x y. ends EO. unfold processMessage. cbn [hm_type hm_body]. rewrite ku_body. cbn [or_alert sbind].
  fold st in eo_state0, eo_suite0. rewrite eo_state0.
  assert (R : (if negb client then let c0 := set_cts st (nextClientSecret (v_prims E) st) in (c0, makeTrafficKeys (v_prims E) (sc_suite c0) (sc_cts c0))
               else let c0 := set_sts st (nextServerSecret (v_prims E) st) in (c0, makeTrafficKeys (v_prims E) (sc_suite c0) (sc_sts c0))) =
              (set_read client st x, makeTrafficKeys (v_prims E) s x)).
  { unfold x, next_secret. rewrite <- eo_suite0. destruct client; reflexivity. }
  cbv zeta in R. cbv zeta. rewrite R. destruct b; [|reflexivity]. change (ku_num true =? KeyUpdateRequested) with true. cbv iota.
  change KeyUpdateNotRequested with (ku_num false).
  rewrite (key_update client c (set_read client st x) false EO) by (destruct client; assumption).
  replace (st_write client (set_read client st x)) with (st_write client st) by (destruct client; reflexivity). reflexivity.
Qed.
Lemma consume_ok client c p tin tout lin lout o c' r : duplex client c p tin tout lin lout -> consumeRecord E o c = (c', r) ->
  c_cfg c' = c_cfg c /\
  ((r = Err WouldBlock /\ duplex client c' p tin tout lin lout /\ c_readBuffer c' = c_readBuffer c /\
     ((List.length (l_in (c_in c')) < List.length (l_in (c_in c)))%nat \/ first_frame (recordFraming false) (rl_data (c_in c)) = None)) \/
  (exists i rest, lin = i :: rest /\ r = Ok tt /\ duplex client c' p tin tout rest (lout ++ reply i) /\ c_readBuffer c' = c_readBuffer c ++ app_data [i] /\
     (List.length (l_in (c_in c')) <= List.length (l_in (c_in c)))%nat) \/
  (r = Panic /\ limit c')).
Proof.
  intros (EO & Din & Dout) H. ends EO. unfold consumeRecord in H. destruct (readRecord (c_in c)) as [l1 r1] eqn:R.
  destruct (in_item _ _ _ _ _ _ _ Din R) as (O & [(-> & Keep & Hcase)|(i & rest & pt & -> & -> & Ca & Hl & Go)]); rewrite negb_involutive in *.
  - cbn [sbind] in H. injection H as <- <-. split; [reflexivity|]. left. split; [reflexivity|]. split; [|split; [reflexivity|exact Hcase]].
    split; [now apply end_in|]. split; [apply Keep; reflexivity|]. eapply out_same; [exact Dout|reflexivity|reflexivity].
  - cbn [sbind] in H. set (c1 := upd_in c l1) in *. assert (E1 : end_ok s client c1) by now apply end_in.
    assert (Dout1 : direction_ok E s client c1 p tout lout) by (eapply out_same; [exact Dout|reflexivity|reflexivity]).
    destruct i as [d|b|t body]; cbn [carries] in Ca.
    + destruct Ca as (T & F). rewrite T, F in H. cbn in H. injection H as <- <-. split; [reflexivity|]. right. left. exists (Data d), rest. split; [reflexivity|]. split; [reflexivity|].
      cbn [reply]. rewrite app_nil_r, app_data_one. split; [|split; [reflexivity|exact Hl]]. split; [now apply end_buffer|]. split; [|exact Dout1].
      apply Go; [|reflexivity]. cbn [core_after]. destruct l1. reflexivity.
    + destruct Ca as (T & F). rewrite T, F in H. change (Byte.eqb x16 rtHandshake) with true in H. cbv iota in H.
      change [x18; x00; x00; x01; if b then x01 else x00] with ([x18] ++ be 3 (len [bb b]) ++ [bb b]) in H.
      change (List.length ([x18] ++ be 3 (len [bb b]) ++ [bb b])) with 5%nat in H.
      rewrite post_one in H; [|exact eo_tls0|reflexivity]. pose proof (process_update client o c1 b E1) as PU. cbv zeta in PU. rewrite PU in H. clear PU.
      change (c_state c1) with (c_state c) in H. set (st := c_state c) in *.
      set (x := next_secret E s (negb client) (st_read client st)) in *. set (y := next_secret E s client (st_write client st)) in *.
      destruct b.
      * cbn [takeActions takeAction] in H. change (f_rem (hl_frame (x_in (c_ctx (set_world c1 (c_world (bump c1))))))) with (f_rem (hl_frame (x_in (c_ctx c)))) in H.
        rewrite eo_frame0 in H. change (c_in (set_world c1 (c_world (bump c1)))) with l1 in H. rewrite rekey_layer in H. cbn [or_alert sbind] in H.
        set (c2 := upd_in (set_world c1 (c_world (bump c1))) (upd_core l1 (keyed E s (l_core l1) x))) in *.
        assert (E2 : end_ok s client c2) by (subst c2; apply end_in; apply (end_bump client c1 E1)).
        destruct (takeActions E (o_ms o) c2 (ku_actions c1 false y)) as [c3 r3] eqn:A. unfold ku_actions in A.
        apply (send_ku client) with (b := false) in A; try reflexivity; [|exact E2|exact (proj1 Dout)].
        destruct A as [(-> & l2 & W & ->)|(-> & -> & Lim)]; injection H as <- <-; (split; [reflexivity|]); right; [left|right; split; [reflexivity|exact Lim]].
        exists (Update true), rest. split; [reflexivity|]. split; [reflexivity|]. split; [|change (app_data [Update true]) with (@nil byte); rewrite app_nil_r; split; [reflexivity|exact Hl]].
        split; [|split].
        -- assert (E3 : end_ok s client (upd_out c2 (upd_core l2 (keyed E s (l_core l2) y)))) by now apply end_out.
           apply (end_set_read client _ x) in E3. apply (end_set_write client _ y) in E3. exact E3.
        -- apply Go; [reflexivity|]. unfold x, st. destruct client; reflexivity.
        -- cbn [reply]. apply (out_item _ _ _ _ _ _ _ _ (Update false) _ Dout W).
           ++ discriminate.
           ++ intros q T' F'. split; [exact T'|]. rewrite F'. reflexivity.
           ++ reflexivity.
           ++ reflexivity.
           ++ unfold y, st. destruct client; reflexivity.
      * cbn [takeActions takeAction] in H. change (f_rem (hl_frame (x_in (c_ctx (set_world c1 (c_world c1)))))) with (f_rem (hl_frame (x_in (c_ctx c)))) in H.
        rewrite eo_frame0 in H. change (c_in (set_world c1 (c_world c1))) with l1 in H. rewrite rekey_layer in H. cbn [or_alert sbind] in H.
        injection H as <- <-. split; [reflexivity|]. right. left. exists (Update false), rest. split; [reflexivity|]. split; [reflexivity|]. split; [|change (app_data [Update false]) with (@nil byte); rewrite app_nil_r; split; [reflexivity|exact Hl]].
        cbn [reply]. rewrite app_nil_r. split; [|split].
        -- assert (E3 : end_ok s client (upd_in (set_world c1 (c_world c1)) (upd_core l1 (keyed E s (l_core l1) x)))) by now apply end_in.
           apply (end_set_read client _ x) in E3. exact E3.
        -- apply Go; [reflexivity|]. unfold x, st. destruct client; reflexivity.
        -- eapply out_same; [exact Dout|reflexivity|]. unfold st. destruct client; reflexivity.
    + destruct Ca as (T & F & Lb & Tb & Cl). rewrite T, F in H. change (Byte.eqb x16 rtHandshake) with true in H. cbv iota in H.
      destruct client; [|discriminate Cl].
      destruct (List.length ([x04] ++ be 3 (len body) ++ body)) as [|k] eqn:Ek; [cbn in Ek; discriminate|].
      rewrite post_one in H; [|exact eo_tls0|exact Lb]. unfold processMessage in H. cbn [hm_type hm_body] in H. rewrite Tb in H. cbn [or_alert sbind] in H.
      change (c_state c1) with (c_state c) in H. rewrite eo_state0 in H. cbn [negb] in H. cbn [takeActions takeAction] in H.
      change (c_cfg (set_world c1 (c_world c1))) with (c_cfg c) in H.
      destruct (cf_psks (c_cfg c)) as [u|] eqn:P; [|congruence]. cbn [sbind] in H.
      injection H as <- <-. split; [reflexivity|]. right. left. exists (Ticket t body), rest. split; [reflexivity|]. split; [reflexivity|].
      change (app_data [Ticket t body]) with (@nil byte). cbn [reply]. rewrite !app_nil_r. split; [|split; [reflexivity|exact Hl]].
      split; [|split].
      * apply (end_psks true c1 (cache_put (w_psks (c_world c1)) (if c_isClient c1 then cf_serverName (c_cfg c1) else
          hexEncode (psk_identity (ticketPSK (v_prims E) (o_now o) (c_state c1) t))) (ticketPSK (v_prims E) (o_now o) (c_state c1) t))) in E1. exact E1.
      * apply Go; [|reflexivity]. cbn [core_after]. destruct l1; reflexivity.
      * exact Dout1.
Qed.

Lemma read_loop_ok client p tin tout n : forall os c c' r lin lout, duplex client c p tin tout lin lout -> (0 < n)%nat -> read_loop E os c n = (c', r) ->
  exists done todo back, lin = done ++ todo /\
    (r <> Panic -> duplex client c' p tin tout todo (lout ++ back) /\ app_data back = [] /\
       c_readBuffer c ++ app_data done = (match r with Ok d => d | _ => [] end) ++ c_readBuffer c') /\
    match r with Ok d => d <> [] | Err e => e = WouldBlock | Panic => limit c' | Fuel => True end.
Proof.
  induction os as [|o os IH]; intros c c' r lin lout D N H; cbn [read_loop] in H.
  - destruct (c_readBuffer c) as [|x b] eqn:B.
    + injection H as <- <-. exists [], lin, []. split; [reflexivity|]. rewrite app_nil_r. split; [|exact I]. intros _. rewrite B. auto.
    + injection H as <- <-. exists [], lin, []. split; [reflexivity|]. rewrite app_nil_r. split.
      * intros _. split; [|split; [reflexivity|]].
        -- destruct D as (EO & D1 & D2). split; [now apply end_buffer|]. split; [eapply in_same; [exact D1|reflexivity|reflexivity]|eapply out_same; [exact D2|reflexivity|reflexivity]].
        -- change (app_data []) with (@nil byte). rewrite app_nil_r. symmetry. apply firstn_skipn.
      * destruct n; [lia|discriminate].
  - destruct (c_readBuffer c) as [|x b] eqn:B.
    + destruct (consumeRecord E o c) as [c1 r1] eqn:C. destruct (consume_ok _ _ _ _ _ _ _ _ _ _ D C) as (_ & [(-> & D1 & B1 & _)|[(i & rest & -> & -> & D1 & B1 & _)|(-> & Lim)]]).
      * assert (Stay : (c1, Err WouldBlock) = (c', r) \/ read_loop E os c1 n = (c', r)).
        { destruct (cf_nonBlocking (c_cfg c1) || negb (is_wb WouldBlock)); auto. }
        destruct Stay as [[= <- <-]|Stay].
        -- exists [], lin, []. split; [reflexivity|]. rewrite app_nil_r, B1, B. split; [|reflexivity]. auto.
        -- destruct (IH _ _ _ _ _ D1 N Stay) as (done & todo & back & -> & K & R). exists done, todo, back. rewrite B1, B in K. auto.
      * destruct (IH _ _ _ _ _ D1 N H) as (done & todo & back & -> & K & R). exists (i :: done), todo, (reply i ++ back). split; [reflexivity|]. split; [|exact R].
        intros HR. destruct (K HR) as (K1 & K2 & K3). rewrite <- app_assoc in K1. split; [exact K1|]. rewrite app_data_app, K2. split; [destruct i as [|[]|]; reflexivity|].
        rewrite <- K3, B1, B. change (i :: done) with ([i] ++ done). now rewrite app_data_app.
      * injection H as <- <-. exists [], lin, []. split; [reflexivity|]. split; [congruence|]. exact Lim.
    + injection H as <- <-. exists [], lin, []. split; [reflexivity|]. rewrite app_nil_r. split.
      * intros _. split; [|split; [reflexivity|]].
        -- destruct D as (EO & D1 & D2). split; [now apply end_buffer|]. split; [eapply in_same; [exact D1|reflexivity|reflexivity]|eapply out_same; [exact D2|reflexivity|reflexivity]].
        -- change (app_data []) with (@nil byte). rewrite app_nil_r. symmetry. apply firstn_skipn.
      * destruct n; [lia|discriminate].
Qed.

Lemma flow_empty fc r sec items w ws : flow E s fc r sec [] items w ws -> items = [].
Proof. intros F. remember [] as d eqn:Ed. destruct F as [|? ? ? ? ? ? ? ? ? ? ? ? H]; [reflexivity|subst; discriminate H]. Qed.
Lemma flow_some fc r sec data items w ws : flow E s fc r sec data items w ws -> items <> [] -> first_frame (recordFraming false) data <> None.
Proof. intros F N. destruct F as [|? ? ? ? ? ? ? ? ? ? ? ? H]; [congruence|rewrite H; discriminate]. Qed.
Lemma read_progress client p tout n : forall os c c' r lin lout, duplex client c p [] tout lin lout -> l_out (c_out p) = [] -> (0 < n)%nat ->
  cf_nonBlocking (c_cfg c) = false -> c_readBuffer c ++ app_data lin <> [] -> (List.length (l_in (c_in c)) + List.length lin <= List.length os)%nat ->
  read_loop E os c n = (c', r) -> (exists d, r = Ok d) \/ (r = Panic /\ limit c').
Proof.
  induction os as [|o os IH]; intros c c' r lin lout D O N NB X L H; cbn [read_loop] in H; (destruct (c_readBuffer c) as [|x b] eqn:B; [|injection H as <- <-; eauto]).
  - destruct lin; [cbn in X; congruence|cbn in L; lia].
  - destruct (consumeRecord E o c) as [c1 r1] eqn:C. destruct (consume_ok _ _ _ _ _ _ _ _ _ _ D C) as (K & [(-> & D1 & B1 & Hc)|[(i & rest & -> & -> & D1 & B1 & Hl)|(-> & Lim)]]).
    + rewrite K, NB in H. cbn [is_wb orb negb] in H. change (negb (is_wb WouldBlock)) with false in H. cbv iota in H.
      assert (Hc1 : (List.length (l_in (c_in c1)) < List.length (l_in (c_in c)))%nat).
      { destruct Hc as [Hc|Hc]; [exact Hc|exfalso]. destruct D as (_ & (_ & _ & F) & _). rewrite O in F. cbn [concat app] in F. rewrite app_nil_r in F.
        apply flow_some in F; [congruence|]. intros ->. cbn in X. congruence. }
      apply (IH _ _ _ _ _ D1 O N) in H; auto; [congruence| |cbn in L; lia]. rewrite B1, B. exact X.
    + apply (IH _ _ _ _ _ D1 O N) in H; auto; [congruence| |cbn in L; lia]. rewrite B1, B. cbn [app] in *. change (i :: rest) with ([i] ++ rest) in X.
      now rewrite app_data_app in X.
    + injection H as <- <-. right. auto.
Qed.

(** ** The pair *)

Definition at_client (n : net) (up down : list item) := duplex true (n_client n) (n_server n) (n_down n) (n_up n) down up.
Definition at_server (n : net) (up down : list item) := duplex false (n_server n) (n_client n) (n_up n) (n_down n) up down.
Lemma linked_client n up down : linked E s n up down <-> at_client n up down /\ end_ok s false (n_server n).
Proof. unfold linked, at_client, duplex. cbn [negb]. tauto. Qed.
Lemma linked_server n up down : linked E s n up down <-> at_server n up down /\ end_ok s true (n_client n).
Proof. unfold linked, at_server, duplex. cbn [negb]. tauto. Qed.

Lemma write_ok client c p tin tout lin lout b c' n r : duplex client c p tin tout lin lout -> write c b = (c', (n, r)) ->
  exists ds, duplex client c' p tin tout lin (lout ++ ds) /\ app_data ds = firstn n b /\ (n <= List.length b)%nat /\ c_readBuffer c' = c_readBuffer c /\
    match r with Ok _ => n = List.length b | Err _ => (N.to_nat 16368 <= List.length b)%nat | Panic => limit c' | Fuel => False end.
Proof.
  intros D H. unfold write, writable in H. rewrite (eo_connected _ _ _ (proj1 D)) in H. cbn [orb negb] in H.
  apply (write_loop_ok client p tin tout lin) with (lout := lout) in H; auto. destruct H as (ds & D1 & A & B & RB & R). exists ds. rewrite Nat.sub_0_r in A. cbn in B.
  split; [exact D1|]. split; [exact A|]. split; [lia|]. split; [exact RB|]. exact R.
Qed.
Lemma handshake_ok client c : end_ok s client c -> forall fuel os, handshake E fuel os c = (c, Ok tt).
Proof. intros EO fuel os. unfold handshake. now rewrite (eo_complete _ _ _ EO). Qed.
Lemma read_ok client c p tin tout lin lout fuel os n c' r : duplex client c p tin tout lin lout -> read E fuel os c n = (c', r) ->
  exists done todo back, lin = done ++ todo /\
    (r <> Panic -> duplex client c' p tin tout todo (lout ++ back) /\ app_data back = [] /\
       c_readBuffer c ++ app_data done = (match r with Ok d => d | _ => [] end) ++ c_readBuffer c') /\
    match r with Ok d => (0 < n)%nat -> d <> [] | Err e => e = WouldBlock | Panic => limit c' | Fuel => True end.
Proof.
  intros D H. unfold read in H. rewrite (eo_connected _ _ _ (proj1 D)), (handshake_ok client c (proj1 D)) in H. cbn [negb sbind] in H.
  destruct (Nat.eqb_spec n 0) as [->|Hn].
  - injection H as <- <-. exists [], lin, []. split; [reflexivity|]. rewrite !app_nil_r. split; [|intros Q; inversion Q]. auto.
  - rewrite (eo_tls _ _ _ (proj1 D)) in H. cbn [sbind] in H. apply (read_loop_ok client p tin tout n _ _ _ _ _ _ D) in H; [|lia].
    destruct H as (done & todo & back & K1 & K2 & K3). exists done, todo, back. split; [exact K1|]. split; [exact K2|]. destruct r; auto.
Qed.
Lemma read_delivers client c p tout lin lout fuel os n c' r : duplex client c p [] tout lin lout -> l_out (c_out p) = [] -> (0 < n)%nat ->
  cf_nonBlocking (c_cfg c) = false -> c_readBuffer c ++ app_data lin <> [] -> (List.length (l_in (c_in c)) + List.length lin <= List.length os)%nat ->
  read E fuel os c n = (c', r) -> (exists d, r = Ok d) \/ (r = Panic /\ limit c').
Proof.
  intros D O N NB X L H. unfold read in H. rewrite (eo_connected _ _ _ (proj1 D)), (handshake_ok client c (proj1 D)) in H. cbn [negb sbind] in H.
  destruct (Nat.eqb_spec n 0) as [->|Hn]; [lia|].
  rewrite (eo_tls _ _ _ (proj1 D)) in H. cbn [sbind] in H. eapply read_progress; eauto.
Qed.

Lemma call_ok client c p tin tout lin lout w g c' : duplex client c p tin tout lin lout -> call_of E c w g c' ->
  exists done todo more, lin = done ++ todo /\ duplex client c' p tin tout todo (lout ++ more) /\ app_data more = w /\ c_readBuffer c ++ app_data done = g ++ c_readBuffer c'.
Proof.
  intros D H. destruct H as [b c' n r H NP|fuel os n c' r H NP|o b c' r H NP|fuel os c' r H NP].
  - destruct (write_ok _ _ _ _ _ _ _ _ _ _ _ D H) as (ds & D1 & A & _ & B & _). exists [], lin, ds. split; [reflexivity|]. rewrite B. cbn. rewrite app_nil_r. auto.
  - destruct (read_ok _ _ _ _ _ _ _ _ _ _ _ _ D H) as (done & todo & back & -> & K & _). destruct (K NP) as (K1 & K2 & K3). exists done, todo, back. auto.
  - destruct (send_update_ok _ _ _ _ _ _ _ _ _ _ _ D H) as [(-> & D1 & B)|(-> & _)]; [|congruence]. exists [], lin, [Update b]. rewrite B. cbn. rewrite app_nil_r. auto.
  - rewrite (handshake_ok client c (proj1 D)) in H. injection H as <- <-. exists [], lin, []. cbn. rewrite !app_nil_r. auto.
Qed.
Lemma end_taken client c : end_ok s client c -> end_ok s client (taken c).
Proof. apply end_out. Qed.
Lemma end_arrives client c d : end_ok s client c -> end_ok s client (arrives c d).
Proof. apply end_in. Qed.
Lemma dir_taken fc a b t l : direction_ok E s fc a b t l -> direction_ok E s fc (taken a) b (t ++ concat (l_out (c_out a))) l.
Proof. intros (W & R & F). split; [exact W|]. split; [exact R|]. cbn -[concat]. rewrite app_nil_r. exact F. Qed.
Lemma data_of_app a b : data_of (a ++ b) = data_of a ++ data_of b.
Proof. induction a as [|[x|] a IH]; cbn; [reflexivity| |exact IH]. now rewrite IH, app_assoc. Qed.
Lemma dir_arrives fc a b x y l : direction_ok E s fc a b (x ++ y) l -> direction_ok E s fc a (arrives b [RBytes x]) y l.
Proof.
  intros (W & ((R1 & R2 & R3) & R4) & F). split; [exact W|]. split.
  { split; [|exact R4]. split; [exact R1|]. split; [exact R2|]. apply Forall_app. split; [exact R3|]. constructor; [eauto|constructor]. }
  unfold rl_data in *. cbn -[concat data_of]. rewrite data_of_app. cbn [data_of]. rewrite app_nil_r, <- !app_assoc. now rewrite <- !app_assoc in F.
Qed.
Lemma run_ok n0 up0 down0 t n : linked E s n0 up0 down0 -> run E n0 t n -> exists up down, linked E s n up down /\
  c_readBuffer (n_server n0) ++ app_data up0 ++ wrote_c t = got_s t ++ c_readBuffer (n_server n) ++ app_data up /\
  c_readBuffer (n_client n0) ++ app_data down0 ++ wrote_s t = got_c t ++ c_readBuffer (n_client n) ++ app_data down.
Proof.
  intros L R. induction R as [|t n w g c' R IH C|t n w g c' R IH C|t n R IH|t n R IH|t n x y R IH X|t n x y R IH X].
  - exists up0, down0. split; [exact L|]. cbn. now rewrite !app_nil_r.
  - destruct IH as (up & down & Ln & A & B). apply linked_client in Ln as [D S].
    destruct (call_ok _ _ _ _ _ _ _ _ _ _ D C) as (done & todo & more & -> & D' & M & K). exists (up ++ more), todo. split; [apply linked_client; split; auto|].
    cbn [wrote_c got_c wrote_s got_s n_client n_server]. rewrite !app_data_app in *. rewrite M. split.
    + rewrite !app_assoc in *. now rewrite A.
    + rewrite B. rewrite <- app_assoc. f_equal. rewrite !app_assoc. now rewrite K.
  - destruct IH as (up & down & Ln & A & B). apply linked_server in Ln as [D S].
    destruct (call_ok _ _ _ _ _ _ _ _ _ _ D C) as (done & todo & more & -> & D' & M & K). exists todo, (down ++ more). split; [apply linked_server; split; auto|].
    cbn [wrote_c got_c wrote_s got_s n_client n_server]. rewrite !app_data_app in *. rewrite M. split.
    + rewrite A. rewrite <- app_assoc. f_equal. rewrite !app_assoc. now rewrite K.
    + rewrite !app_assoc in *. now rewrite B.
  - destruct IH as (up & down & (L1 & L2 & L3 & L4) & A & B). exists up, down. split; [|auto].
    split; [now apply end_taken|]. split; [exact L2|]. split; [now apply dir_taken|]. eapply in_same; [exact L4|reflexivity|reflexivity].
  - destruct IH as (up & down & (L1 & L2 & L3 & L4) & A & B). exists up, down. split; [|auto].
    split; [exact L1|]. split; [now apply end_taken|]. split; [|now apply dir_taken]. eapply in_same; [exact L3|reflexivity|reflexivity].
  - destruct IH as (up & down & (L1 & L2 & L3 & L4) & A & B). exists up, down. split; [|auto]. rewrite X in L3.
    split; [exact L1|]. split; [now apply end_arrives|]. split; [now apply dir_arrives|]. eapply out_same; [exact L4|reflexivity|reflexivity].
  - destruct IH as (up & down & (L1 & L2 & L3 & L4) & A & B). exists up, down. split; [|auto]. rewrite X in L4.
    split; [now apply end_arrives|]. split; [exact L2|]. split; [|now apply dir_arrives]. eapply out_same; [exact L3|reflexivity|reflexivity].
Qed.
End Chan.
