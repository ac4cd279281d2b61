(** What one end of a stream does, as the other end will come across it. *)
From Verif Require Import Base Syntax Frame FrameProofs Record RecordSpec RecordProofs RecordProofs2 HandshakeProofs Timer Handshake Crypto Messages Pki Negotiation Machine Conn ConnSpec ChannelSpec ChannelProofs WireProofs StillProofs.
Import FrameProofs.

(** ** The version in the records is not looked at *)

Lemma handle_version r v old h b : handleFrame (setVersion r v) old h b = (setVersion (fst (handleFrame r old h b)) v, snd (handleFrame r old h b)).
Proof.
  unfold handleFrame. destruct h as [|t h]; [reflexivity|]. destruct (negb _); [reflexivity|]. cbv zeta. destruct (_ <? _); [reflexivity|].
  change (r_datagram (setVersion r v)) with (r_datagram r). change (r_readCiphers (setVersion r v)) with (r_readCiphers r).
  change (r_cipher (setVersion r v)) with (r_cipher r). change (get_cs (setVersion r v)) with (get_cs r).
  match goal with |- context [match (do _ <- ?s; _) with _ => _ end] => destruct s as [[sq i]|e| |]; cbn [bind]; try reflexivity end.
  change (decrypt (setVersion r v)) with (decrypt r).
  match goal with |- context [match (do _ <- ?s; _) with _ => _ end] => destruct s as [pt|e| |]; cbn [bind]; try reflexivity end.
  destruct (_ <? _); [reflexivity|].
  destruct (incrementSequenceNumber (get_cs r i)) as [c'|e| |]; reflexivity.
Qed.
Lemma opens_version r v h b pt : opens r h b pt -> opens (setVersion r v) h b pt.
Proof.
  intros (A & B). split; intros S; change (c_seq (cur (setVersion r v))) with (c_seq (cur r)) in S; rewrite handle_version; cbn [snd].
  - now rewrite (A S).
  - exact (B S).
Qed.
Lemma heads_version r p d ts r' p' d' : heads r p d ts r' p' d' -> forall v, heads (setVersion r v) p d ts (setVersion r' v) p' d'.
Proof.
  induction 1 as [r p d|r p d hdr body d1 pt ts r' p' d' F O T N _ IH|r p d m ts r' p' d' L _ IH|r d e k iv ts r' p' d' _ IH]; intros v.
  - apply h_nil.
  - eapply h_rec; [exact F|apply opens_version; exact O|exact T|exact N|]. exact (IH v).
  - now apply h_msg.
  - apply h_key. exact (IH v).
Qed.
Lemma sync_version_w w r v : sync w r -> sync (setVersion w v) r.
Proof. exact (fun H => H). Qed.
Lemma sync_version_r w r v : sync w r -> sync w (setVersion r v).
Proof. exact (fun H => H). Qed.
Lemma rcore_version r v : rcore_ok r -> rcore_ok (setVersion r v).
Proof. exact (fun H => H). Qed.
Lemma wr_version r v : wr_ok r -> wr_ok (setVersion r v).
Proof. exact (fun H => H). Qed.

(** ** One direction *)

Notation outl x := (hl_conn (x_out x)).
Notation inl x := (hl_conn (x_in x)).
(** The end [x] writes; with [tr] in the network, [ts] is ahead of the reader [xr]. *)
Definition pipe (xr : hctx) (tr : bytes) (x : hctx) (ts : list tok) : Prop :=
  tx_ok x /\ exists r', ahead xr (tr ++ concat (l_out (outl x))) ts r' [] /\ rcore_ok r' /\ sync (l_core (outl x)) r'.

Lemma ahead_still x x1 tr ts r' d' : ahead x tr ts r' d' -> still x x1 -> exists v, ahead x1 tr ts (setVersion r' v) d'.
Proof.
  intros ((D & Q & (Hc & F & Er) & Fr & R) & H) ((A1 & A2 & A3 & A4 & v & A5) & _ & B1 & B2 & B3 & B4 & _).
  exists v. split.
  - split; [exact B2|]. split; [congruence|]. split; [split; [congruence|]; rewrite A1, A3, A5; split; [exact F|exact Er]|].
    split; [now rewrite B1|]. rewrite A5. exact R.
  - unfold rl_data. rewrite A5, B1, A1, A3. now apply heads_version.
Qed.
Lemma tx_still x x1 : tx_ok x -> still x x1 -> tx_ok x1.
Proof.
  intros (A & B & C & D & F) (_ & (_ & _ & _ & _ & v & A5) & _ & _ & B3 & _ & B5 & B6 & B7).
  split; [exact B3|]. split; [congruence|]. split; [congruence|]. split; [congruence|]. rewrite A5. exact F.
Qed.
Lemma pipe_reader xr xr1 tr x ts : pipe xr tr x ts -> still xr xr1 -> pipe xr1 tr x ts.
Proof. intros (T & r' & A & R & S) H. split; [exact T|]. destruct (ahead_still _ _ _ _ _ _ A H) as (v & A1). exists (setVersion r' v). auto. Qed.
Lemma pipe_writer xr tr x x1 ts : pipe xr tr x ts -> still x x1 -> pipe xr tr x1 ts.
Proof.
  intros (T & r' & A & R & S) H. split; [exact (tx_still _ _ T H)|]. exists r'.
  destruct H as (_ & (_ & _ & _ & A4 & v & A5) & _). rewrite A4, A5. auto.
Qed.
Lemma tx_read x x1 : tx_ok x -> has_read x x1 -> tx_ok x1.
Proof. intros H (l & f & n & ->). exact H. Qed.
Lemma pipe_has_read xr tr x x1 ts : pipe xr tr x ts -> has_read x x1 -> pipe xr tr x1 ts.
Proof. intros H (l & f & n & ->). exact H. Qed.

Lemma ahead_more_heads x tr ts r1 more ts2 r2 : ahead x tr ts r1 [] -> heads r1 [] more ts2 r2 [] [] -> ahead x (tr ++ more) (ts ++ ts2) r2 [].
Proof.
  intros (A & B) H. split; [exact A|]. rewrite app_assoc. eapply heads_then; eauto.
Qed.

(** Only the writing side changes. *)
Lemma pipe_queue xr tr x x1 ts m : pipe xr tr x ts -> tls_msg m -> queueMessage x m = (x1, Ok tt) ->
  pipe xr tr x1 (ts ++ [M (pair_of m)]) /\ exists l, x1 = set_out x (set_conn (x_out x) l).
Proof.
  intros (T & r' & A & R & S) Hm H. destruct (queue_heads _ _ _ _ T Hm R S H) as (recs & r1 & (l & -> & Hl) & T1 & R1 & S1 & Hh).
  split; [|now exists l]. split; [exact T1|]. exists r1. split; [|auto]. cbn [x_out set_out set_conn hl_conn]. rewrite Hl, concat_app, app_assoc.
  eapply ahead_more_heads; eauto.
Qed.

(** ** Actions *)

Definition tok_of (E : env) (a : action) : list tok :=
  match a with
  | QueueHandshakeMessage m => [M (pair_of m)]
  | RekeyOut e k => [K e (v_gcm E (k_key k)) (k_iv k)]
  | _ => []
  end.
Definition toks (E : env) (l : list action) : list tok := flat_map (tok_of E) l.
Definition in_step_of (E : env) (r : rcore) (a : action) : rcore :=
  match a with RekeyIn e k => rekey r e (v_gcm E (k_key k)) (k_iv k) | _ => r end.
Definition in_after (E : env) (l : list action) (r : rcore) : rcore := fold_left (in_step_of E) l r.
Definition action_ok (a : action) : Prop :=
  match a with
  | QueueHandshakeMessage m => tls_msg m
  | RekeyOut _ k => (8 <= List.length (k_iv k))%nat
  | ResetOut _ => False
  | _ => True
  end.
(** The reading side of the context, with these keys. *)
Definition set_rcore (x : hctx) (r : rcore) : hlayer := set_conn (x_in x) (upd_core (inl x) r).

Lemma rekeyed E l e k l' r : layer_rekey E l e k = (l', r) -> r = Ok tt -> l' = upd_core l (rekey (l_core l) e (v_gcm E (k_key k)) (k_iv k)).
Proof. unfold layer_rekey. destruct (cipherSuiteMap _); [|congruence]. destruct (_ || _)%bool; congruence. Qed.
Lemma rekey_cur r e k iv : cur (rekey r e k iv) = mkCs e 0 iv (Some k).
Proof. unfold cur, get_cs, rekey. cbn [r_heap r_cipher]. rewrite app_nth2, Nat.sub_diag by lia. reflexivity. Qed.
Lemma rekey_cur_ok r e k iv : cur_ok (rekey r e k iv).
Proof. unfold cur_ok, rekey. cbn [r_heap r_cipher]. rewrite app_length. cbn. lia. Qed.
Lemma rekey_rcore r e k iv : rcore_ok r -> rcore_ok (rekey r e k iv).
Proof. intros (A & B & C). split; [exact A|]. split; [exact B|]. apply rekey_cur_ok. Qed.
Lemma rekey_wr E r e k iv : gcm_ok E -> wr_ok r -> (8 <= List.length iv)%nat -> wr_ok (rekey r e (v_gcm E k) iv).
Proof.
  intros G (A & B & C & D) I. split; [exact A|]. split; [exact B|]. split; [apply rekey_cur_ok|]. rewrite rekey_cur. cbn [c_aead].
  split; [|exact I]. exists (v_gcm E k). split; [reflexivity|]. apply G.
Qed.
Lemma rekey_sync w r e k iv : sync (rekey w e k iv) (rekey r e k iv).
Proof. unfold sync. rewrite !rekey_cur. auto. Qed.

Lemma set_rcore_same x : set_rcore x (l_core (inl x)) = x_in x.
Proof. unfold set_rcore, upd_core, set_conn. destruct x as [[n [] f d m q r mx] ? ? ? ? ?]. reflexivity. Qed.

Section Acts.
Context (E : env) (gcm : gcm_ok E).

Lemma pipe_rekey xr tr x ts e k l : pipe xr tr x ts -> (8 <= List.length (k_iv k))%nat -> layer_rekey E (outl x) e k = (l, Ok tt) ->
  pipe xr tr (set_out x (set_conn (x_out x) l)) (ts ++ [K e (v_gcm E (k_key k)) (k_iv k)]).
Proof.
  intros ((T1 & T2 & T3 & T4 & T5) & r' & A & R & S) I H. apply rekeyed in H; [|reflexivity]. subst l.
  split; [split; [exact T1|split; [exact T2|split; [exact T3|split; [exact T4|now apply rekey_wr]]]]|].
  exists (rekey r' e (v_gcm E (k_key k)) (k_iv k)). split; [|split; [now apply rekey_rcore|apply rekey_sync]].
  cbn [x_out set_out set_conn hl_conn upd_core l_out]. rewrite <- (app_nil_r (tr ++ _)). eapply ahead_more_heads; [exact A|]. apply h_key, h_nil.
Qed.

Lemma act_pipe now xr tr c ts a c' : pipe xr tr (c_ctx c) ts -> action_ok a -> cf_useDTLS (c_cfg c) = false -> takeAction E now c a = (c', Ok tt) ->
  pipe xr tr (c_ctx c') (ts ++ tok_of E a) /\ x_in (c_ctx c') = set_rcore (c_ctx c) (in_step_of E (l_core (c_in c)) a) /\ c_cfg c' = c_cfg c /\
  x_sent (c_ctx c') = x_sent (c_ctx c).
Proof.
  intros Pp Ha Ht H. destruct a as [m| |e k|e k|sq|p]; cbn [takeAction tok_of in_step_of] in *.
  - destruct (queueMessage (c_ctx c) m) as [x r] eqn:Eq. destruct r as [[]|er| |]; cbn [or_alert] in H; try discriminate. injection H as <-.
    destruct (pipe_queue _ _ _ _ _ _ Pp Ha Eq) as (P1 & l & ->). split; [exact P1|]. split; [symmetry; apply (set_rcore_same (c_ctx c))|auto].
  - destruct (sendQueued (c_ctx c)) as [x r] eqn:Eq. destruct Pp as (Tx & Hp). pose proof Tx as (T1 & T2 & T3 & T4 & T5).
    unfold sendQueued in Eq. rewrite T3 in Eq. cbn [writeMessages] in Eq. rewrite T1 in Eq. injection Eq as <- <-. cbn [or_alert sbind] in H.
    change (c_cfg (upd_ctx c (clearQueued (c_ctx c)))) with (c_cfg c) in H. rewrite Ht in H. injection H as <-. rewrite app_nil_r.
    split; [split; [|exact Hp]; split; [exact T1|split; [exact T2|split; [reflexivity|split; [exact T4|exact T5]]]]|]. split; [symmetry; apply (set_rcore_same (c_ctx c))|auto].
  - destruct (f_rem (hl_frame (x_in (c_ctx c)))); [|discriminate]. destruct (layer_rekey E (c_in c) e k) as [l r] eqn:Er.
    destruct r as [[]|er| |]; cbn [or_alert] in H; try discriminate. injection H as <-. apply rekeyed in Er; [|reflexivity]. subst l. rewrite app_nil_r.
    split; [exact Pp|]. split; [reflexivity|auto].
  - destruct (layer_rekey E (c_out c) e k) as [l r] eqn:Er. destruct r as [[]|er| |]; cbn [or_alert] in H; try discriminate. injection H as <-.
    split; [exact (pipe_rekey _ _ _ _ _ _ _ Pp Ha Er)|]. split; [symmetry; apply (set_rcore_same (c_ctx c))|auto].
  - destruct Ha.
  - destruct (cf_psks (c_cfg c)); [|discriminate]. injection H as <-. rewrite app_nil_r. split; [exact Pp|]. split; [symmetry; apply (set_rcore_same (c_ctx c))|auto].
Qed.
Lemma acts_pipe now l : forall xr tr c ts c', pipe xr tr (c_ctx c) ts -> Forall action_ok l -> cf_useDTLS (c_cfg c) = false -> takeActions E now c l = (c', Ok tt) ->
  pipe xr tr (c_ctx c') (ts ++ toks E l) /\ x_in (c_ctx c') = set_rcore (c_ctx c) (in_after E l (l_core (c_in c))) /\ c_cfg c' = c_cfg c.
Proof.
  induction l as [|a l IH]; intros xr tr c ts c' Pp F Ht H; cbn [takeActions toks flat_map] in *.
  - injection H as <-. rewrite app_nil_r. split; [exact Pp|]. split; [symmetry; apply (set_rcore_same (c_ctx c))|reflexivity].
  - inversion F as [|? ? Fa Fl]; subst. destruct (takeAction E now c a) as [c1 [[]|e| |]] eqn:Ea; cbn [sbind] in H; try discriminate.
    destruct (act_pipe _ _ _ _ _ _ _ Pp Fa Ht Ea) as (P1 & X1 & C1 & _). apply (IH _ _ _ _ _ P1 Fl) in H; [|congruence].
    destruct H as (P2 & X2 & C2). rewrite <- app_assoc in P2. split; [exact P2|]. split; [|congruence]. rewrite X2. unfold in_after. cbn [fold_left].
    unfold set_rcore, c_in. rewrite X1. reflexivity.
Qed.

(** The reader's own actions: a change of its keys is what it comes across. *)
Lemma ahead_rekey x tr e k iv ts r' d' x1 : ahead x tr (K e k iv :: ts) r' d' -> x_in x1 = set_rcore x (rekey (l_core (inl x)) e k iv) -> ahead x1 tr ts r' d'.
Proof.
  intros ((D & Q & (Hc & F & Er) & Fr & R) & H) X. apply heads_key in H. destruct H as (Hp & H). unfold ahead, rx_ok. rewrite X.
  split; [|unfold set_rcore, rl_data; cbn [hl_frame hl_conn set_conn upd_core l_core l_frame l_in]; rewrite Hp; exact H].
  split; [exact D|]. split; [exact Q|]. split; [split; [exact Hc|split; [exact F|exact Er]]|]. split; [exact Fr|]. now apply rekey_rcore.
Qed.
Lemma ahead_same x tr ts r' d' x1 : ahead x tr ts r' d' -> x_in x1 = x_in x -> ahead x1 tr ts r' d'.
Proof. intros H X. unfold ahead, rx_ok. rewrite X. exact H. Qed.
End Acts.

(** The keys of a retried client are cleared again. *)
Lemma pipe_reset xr tr x ts n : pipe xr tr x ts -> c_aead (cur (l_core (outl x))) = None ->
  pipe xr tr (set_out x (set_conn (x_out x) (upd_core (outl x) (resetClear (l_core (outl x)) n)))) ts.
Proof.
  intros ((T1 & T2 & T3 & T4 & T5 & T6 & T7 & T8) & r' & A & R & S1 & S2) H.
  assert (E : cur (resetClear (l_core (outl x)) n) = mkCs EpochClear n [] None).
  { unfold cur, get_cs, resetClear. cbn [r_heap r_cipher]. rewrite app_nth2, Nat.sub_diag by lia. reflexivity. }
  split.
  - split; [exact T1|]. split; [exact T2|]. split; [exact T3|]. split; [exact T4|]. split; [exact T5|]. split; [exact T6|].
    cbn [x_out set_out set_conn hl_conn upd_core l_core]. rewrite E. split; [|exact I].
    unfold cur_ok, resetClear. cbn [r_heap r_cipher]. rewrite app_length. cbn. lia.
  - exists r'. split; [exact A|]. split; [exact R|]. unfold sync. cbn [x_out set_out set_conn hl_conn upd_core l_core]. rewrite E. cbn [c_aead].
    split; [congruence|]. intros N. now destruct N.
Qed.
