(** Handshake messages and key changes on their way over a stream. *)
From Verif Require Import Base Syntax Frame FrameProofs Record RecordSpec RecordProofs RecordProofs2 HandshakeProofs Timer Handshake Crypto Messages Pki Negotiation Machine Conn ConnSpec ChannelSpec ChannelProofs.
Import FrameProofs.

(** ** What a reader will come across *)

(** A handshake message, or the point where the reader changes its keys. *)
Inductive tok := M (m : byte * bytes) | K (epoch : N) (k : aead) (iv : bytes).

Definition after_record (r : rcore) : rcore :=
  set_cs r (r_cipher r) (mkCs (c_epoch (cur r)) (c_seq (cur r) + 1) (c_iv (cur r)) (c_aead (cur r))).
(** The reader opens the record unless it has run out of sequence numbers, which is a crash. *)
Definition opens (r : rcore) (hdr body : bytes) (pt : plaintext) : Prop :=
  (c_seq (cur r) < 2 ^ 48 - 1 -> handleFrame r false hdr body = (after_record r, Ok pt)) /\
  (2 ^ 48 - 1 <= c_seq (cur r) -> snd (handleFrame r false hdr body) = Panic).

(** [heads r p d ts r' p' d']: a reader in state [r] with the bytes [p] of handshake messages already opened and the
    bytes [d] of records before it meets [ts], after which it is in state [r'] with [p'] and [d']. *)
Inductive heads : rcore -> bytes -> bytes -> list tok -> rcore -> bytes -> bytes -> Prop :=
| h_nil r p d : heads r p d [] r p d
| h_rec r p d hdr body d1 pt ts r' p' d' : first_frame (recordFraming false) d = Some (Ok (hdr, body), d1) -> opens r hdr body pt ->
    p_type pt = rtHandshake -> p_fragment pt <> [] -> heads (after_record r) (p ++ p_fragment pt) d1 ts r' p' d' -> heads r p d ts r' p' d'
| h_msg r p d m ts r' p' d' : len (snd m) < 2 ^ 24 -> heads r p d ts r' p' d' -> heads r (tls_wire m ++ p) d (M m :: ts) r' p' d'
| h_key r d e k iv ts r' p' d' : heads (rekey r e k iv) [] d ts r' p' d' -> heads r [] d (K e k iv :: ts) r' p' d'.

Lemma heads_more r p d ts r' p' d' more : heads r p d ts r' p' d' -> heads r p (d ++ more) ts r' p' (d' ++ more).
Proof.
  induction 1 as [r p d|r p d hdr body d1 pt ts r' p' d' F O T N _ IH|r p d m ts r' p' d' L _ IH|r d e k iv ts r' p' d' _ IH].
  - apply h_nil.
  - eapply h_rec; eauto. now apply first_frame_app.
  - now apply h_msg.
  - now apply h_key.
Qed.
Lemma heads_trans r p d ts r1 p1 d1 : heads r p d ts r1 p1 d1 -> forall ts2 r2 p2 d2, heads r1 p1 d1 ts2 r2 p2 d2 -> heads r p d (ts ++ ts2) r2 p2 d2.
Proof.
  induction 1 as [r p d|r p d hdr body d1 pt ts r' p' d' F O T N _ IH|r p d m ts r' p' d' L _ IH|r d e k iv ts r' p' d' _ IH]; intros ts2 r2 p2 d2 H; cbn [app].
  - exact H.
  - eapply h_rec; eauto.
  - apply h_msg; auto.
  - apply h_key; auto.
Qed.
Lemma heads_then r p d ts r1 ts2 r2 d2 : heads r p d ts r1 [] [] -> heads r1 [] d2 ts2 r2 [] [] -> heads r p (d ++ d2) (ts ++ ts2) r2 [] [].
Proof. intros A B. eapply heads_trans; [exact (heads_more _ _ _ _ _ _ _ d2 A)|exact B]. Qed.

(** Nothing left to come across. *)
Lemma heads_grow r p d ts r' p' d' : heads r p d ts r' p' d' -> ts = [] -> (p' = [] -> p = [] /\ r = r' /\ d = d').
Proof.
  induction 1 as [r p d|r p d hdr body d1 pt ts r' p' d' F O T N _ IH|r p d m ts r' p' d' L _ IH|r d e k iv ts r' p' d' _ IH]; intros Hts Hp; try discriminate.
  - auto.
  - destruct (IH Hts Hp) as (A & _). apply app_eq_nil in A. now destruct A.
Qed.
Lemma heads_done r p d r' d' : heads r p d [] r' [] d' -> p = [] /\ r = r' /\ d = d'.
Proof. intros H. exact (heads_grow _ _ _ _ _ _ _ H eq_refl eq_refl). Qed.
(** A change of keys comes at the end of a record. *)
Lemma heads_key_gen r p d ts r' p' d' : heads r p d ts r' p' d' -> forall e k iv ts', ts = K e k iv :: ts' -> p = [] /\ heads (rekey r e k iv) [] d ts' r' p' d'.
Proof.
  induction 1 as [r p d|r p d hdr body d1 pt ts r' p' d' F O T N _ IH|r p d m ts r' p' d' L _ IH|r d e k iv ts r' p' d' H _]; intros e0 k0 iv0 ts' Hts; try discriminate.
  - destruct (IH _ _ _ _ Hts) as (A & _). apply app_eq_nil in A. now destruct A.
  - injection Hts as <- <- <- <-. auto.
Qed.
Lemma heads_key r p d e k iv ts r' p' d' : heads r p d (K e k iv :: ts) r' p' d' -> p = [] /\ heads (rekey r e k iv) [] d ts r' p' d'.
Proof. intros H. exact (heads_key_gen _ _ _ _ _ _ _ H _ _ _ _ eq_refl). Qed.
(** A message that is complete. *)
Lemma heads_frame_gen r p d ts r' p' d' : heads r p d ts r' p' d' -> forall m ts' q rest, ts = M m :: ts' ->
  first_frame (handshakeFraming false) p = Some (q, rest) -> q = Ok ([fst m] ++ be 3 (len (snd m)), snd m) /\ heads r rest d ts' r' p' d'.
Proof.
  induction 1 as [r p d|r p d hdr body d1 pt ts r' p' d' F O T N _ IH|r p d m ts r' p' d' L H _|r d e k iv ts r' p' d' H _]; intros m0 ts' q rest Hts Hf; try discriminate.
  - destruct (IH m0 ts' q (rest ++ p_fragment pt) Hts) as (A & B); [now apply first_frame_app|]. split; [exact A|]. eapply h_rec; eauto.
  - injection Hts as <- <-. rewrite tls_wire_frame in Hf by exact L. injection Hf as <- <-. auto.
Qed.
Lemma heads_frame r p d m ts r' p' d' q rest : heads r p d (M m :: ts) r' p' d' ->
  first_frame (handshakeFraming false) p = Some (q, rest) -> q = Ok ([fst m] ++ be 3 (len (snd m)), snd m) /\ heads r rest d ts r' p' d'.
Proof. intros H. exact (heads_frame_gen _ _ _ _ _ _ _ H _ _ _ _ eq_refl). Qed.
(** A message that is not. *)
Lemma heads_partial r p d m ts r' p' d' : heads r p d (M m :: ts) r' p' d' -> first_frame (handshakeFraming false) p = None ->
  exists hdr body d1 pt, first_frame (recordFraming false) d = Some (Ok (hdr, body), d1) /\ opens r hdr body pt /\ p_type pt = rtHandshake /\
    heads (after_record r) (p ++ p_fragment pt) d1 (M m :: ts) r' p' d'.
Proof.
  intros H Hf. inversion H as [|? ? ? hdr body d1 pt ? ? ? ? F O T N H1|? p0 ? ? ? ? ? ? L H1|]; subst.
  - exists hdr, body, d1, pt. auto.
  - rewrite tls_wire_frame in Hf by exact L. discriminate.
Qed.

(** ** The reader *)

Definition rx_ok (x : hctx) : Prop :=
  hl_datagram (x_in x) = false /\ hl_queued (x_in x) = [] /\ rl_wf (hl_conn (x_in x)) /\ fr_ok (handshakeFraming false) (hl_frame (x_in x)) /\
  rcore_ok (l_core (hl_conn (x_in x))).
(** The tokens [ts] are ahead of the reader when [tr] is in the network; after them it is in state [r'] with [d']. *)
Definition ahead (x : hctx) (tr : bytes) (ts : list tok) (r' : rcore) (d' : bytes) : Prop :=
  rx_ok x /\ heads (l_core (hl_conn (x_in x))) (pending (hl_frame (x_in x))) (rl_data (hl_conn (x_in x)) ++ tr) ts r' [] d'.
(** The reader waits for a message, which may not be there yet. *)
Definition waits (ts : list tok) (d' : bytes) : Prop := (exists m ts', ts = M m :: ts') \/ (ts = [] /\ d' = []).
(** Only the reading side of the layer below has changed. *)
Definition has_read (x x1 : hctx) : Prop := exists l f n, x1 = set_in x (set_recvd (set_frame (set_conn (x_in x) l) f) n).
Lemma has_read_refl x : has_read x x.
Proof. exists (hl_conn (x_in x)), (hl_frame (x_in x)), (hl_recvd (x_in x)). destruct x as [[] ? ? ? ? ?]. reflexivity. Qed.
Lemma has_read_trans x y z : has_read x y -> has_read y z -> has_read x z.
Proof. intros (l & f & n & ->) (l1 & f1 & n1 & ->). exists l1, f1, n1. reflexivity. Qed.

Lemma handle_epoch r h b r' pt : r_datagram r = false -> handleFrame r false h b = (r', Ok pt) -> p_epoch pt = c_epoch (cur r).
Proof.
  intros D. unfold handleFrame. rewrite D. destruct h as [|t h]; [congruence|]. destruct (negb _); [congruence|]. destruct (_ <? _); [congruence|].
  cbn [bind]. fold (cur r). match goal with |- context [match ?e with _ => _ end] => destruct e as [[[p i] c]|e'| |] eqn:Eb end; try congruence.
  intros H. assert (p = pt) by congruence. subst p. inv_bind Eb as p1 E1. destruct (_ <? _); [discriminate|]. inv_bind Eb as c1 E2.
  assert (E : pt = mkPt (p_type p1) (c_epoch (cur r)) (p_seq p1) (p_fragment p1)) by congruence. now rewrite E.
Qed.
Lemma after_record_ok r : rcore_ok r -> rcore_ok (after_record r).
Proof. intros (A & B & C). split; [exact A|]. split; [exact B|]. now apply cur_ok_set. Qed.
Lemma after_record_epoch r : cur_ok r -> rl_epoch (after_record r) = c_epoch (cur r).
Proof. intros C. unfold rl_epoch. change (get_cs (after_record r) (r_cipher (after_record r))) with (cur (after_record r)). unfold after_record. now rewrite cur_set. Qed.

Lemma ahead_quiet x tr r' : ahead x tr [] r' [] -> pending (hl_frame (x_in x)) = [] /\ rl_data (hl_conn (x_in x)) = [] /\ tr = [] /\ r' = l_core (hl_conn (x_in x)).
Proof. intros (_ & H). apply heads_done in H. destruct H as (A & B & C). apply app_eq_nil in C. destruct C. auto. Qed.

Lemma record_ahead now x tr ts r' d' x1 rr : ahead x tr ts r' d' -> waits ts d' -> first_frame (handshakeFraming false) (pending (hl_frame (x_in x))) = None ->
  hl_readRecord now x = (x1, rr) -> has_read x x1 /\ (rr = Panic \/ ((rr = Ok tt \/ rr = Err WouldBlock) /\ ahead x1 tr ts r' d')).
Proof.
  intros Ah Wt Hf H. pose proof Ah as ((D & Q & (Hc & F & Er) & Fr & Rok) & Hd).
  unfold hl_readRecord in H. rewrite D in H. unfold readRecordE, nextRecord in H. rewrite Hc in H.
  destruct (nextFrame_spec _ (l_in (hl_conn (x_in x))) (l_frame (hl_conn (x_in x))) (recordFraming_lawful (r_datagram (l_core (hl_conn (x_in x))))) F Er)
    as (c' & f' & q & E1 & F' & N' & _ & HH).
  rewrite E1 in H. pose proof Rok as (Dg & Dr & Cr). rewrite Dg in *. fold (rl_data (hl_conn (x_in x))) in HH. destruct HH as [HH|(-> & Hp & _)].
  - apply first_frame_app with (more := tr) in HH. destruct Wt as [(m & ts' & ->)|(-> & ->)].
    2: { apply heads_done in Hd. destruct Hd as (_ & _ & Hd). rewrite Hd in HH. discriminate HH. }
    destruct (heads_partial _ _ _ _ _ _ _ _ Hd Hf) as (hdr & body & d1 & pt & Hff & (O1 & O2) & T & H1). rewrite HH in Hff. injection Hff as -> <-.
    cbv beta iota zeta in H. cbn [l_core l_in l_frame l_out] in H.
    destruct (N.ltb_spec (c_seq (cur (l_core (hl_conn (x_in x))))) (2 ^ 48 - 1)) as [Sq|Sq].
    + specialize (O1 Sq). pose proof (handle_epoch _ _ _ _ _ Dg O1) as Ep. rewrite O1 in H. cbn [l_core l_in l_frame l_out] in H. rewrite T in H.
      change (Byte.eqb rtHandshake rtHandshake) with true in H. change (Byte.eqb rtHandshake rtAck) with false in H.
      change (Byte.eqb rtHandshake rtAlert) with false in H. cbn [orb negb] in H. rewrite after_record_epoch, Ep, N.eqb_refl in H by exact Cr.
      cbn [negb] in H. injection H as <- <-. split; [exists (mkRl (after_record (l_core (hl_conn (x_in x)))) f' None c' (l_out (hl_conn (x_in x)))), (addChunk (hl_frame (x_in x)) (p_fragment pt)), (hl_recvd (x_in x) ++ [p_seq pt]); reflexivity|]. right. split; [left; reflexivity|].
      split.
      * split; [exact D|]. split; [exact Q|]. cbn [x_in set_in set_frame set_recvd set_conn hl_conn hl_frame]. split; [split; [reflexivity|split; [cbn [l_core l_frame]; change (r_datagram (after_record ?r)) with (r_datagram r); now rewrite Dg|exact N']]|].
        split; [exact Fr|]. cbn [l_core]. now apply after_record_ok.
      * cbn [x_in set_in set_frame set_recvd set_conn hl_conn hl_frame l_core]. rewrite pending_add. unfold rl_data. cbn [l_frame l_in]. exact H1.
    + specialize (O2 Sq). destruct (handleFrame (l_core (hl_conn (x_in x))) false hdr body) as [core y]. cbn [snd] in O2. subst y. injection H as <- <-.
      split; [|left; reflexivity]. exists (mkRl core f' None c' (l_out (hl_conn (x_in x)))), (hl_frame (x_in x)), (hl_recvd (x_in x)). destruct x as [[] ? ? ? ? ?]. reflexivity.
  - cbv beta iota zeta in H. injection H as <- <-. split; [exists (mkRl (l_core (hl_conn (x_in x))) f' None c' (l_out (hl_conn (x_in x)))), (hl_frame (x_in x)), (hl_recvd (x_in x)); destruct x as [[] ? ? ? ? ?]; reflexivity|]. right. split; [right; reflexivity|].
    split.
    + split; [exact D|]. split; [exact Q|]. cbn [x_in set_in set_frame set_recvd set_conn hl_conn hl_frame]. split; [split; [reflexivity|split; [cbn [l_core l_frame]; now rewrite Dg|exact N']]|].
      split; [exact Fr|exact Rok].
    + cbn [x_in set_in set_frame set_recvd set_conn hl_conn hl_frame l_core]. unfold rl_data at 1. cbn [l_frame l_in]. rewrite Hp. exact Hd.
Qed.

Lemma readFrame_ahead fuel : forall now x tr ts r' d' x1 rr, ahead x tr ts r' d' -> waits ts d' -> readFrame_loop fuel now x = (x1, rr) ->
  has_read x x1 /\
  match rr with
  | Ok hb => exists m ts', ts = M m :: ts' /\ hb = ([fst m] ++ be 3 (len (snd m)), snd m) /\ ahead x1 tr ts' r' d'
  | Err e => e = WouldBlock /\ ahead x1 tr ts r' d'
  | _ => True
  end.
Proof.
  induction fuel as [|fuel IH]; intros now x tr ts r' d' x1 rr Ah Wt H; cbn [readFrame_loop] in H.
  { injection H as <- <-. split; [apply has_read_refl|exact I]. }
  assert (Hstep : forall x2, ahead x2 tr ts r' d' -> has_read x x2 ->
    (let h := x_in x2 in
        let '(f, r) := process (handshakeFraming (hl_datagram h)) (hl_frame h) in
        let x3 := set_in x2 (set_frame h f) in
        match r with
        | Err e => if negb (hl_nonblocking (x_in x)) && is_wb e then readFrame_loop fuel now x3 else (x3, Err e)
        | _ => (x3, r)
        end) = (x1, rr) ->
    has_read x x1 /\
    match rr with
    | Ok hb => exists m ts', ts = M m :: ts' /\ hb = ([fst m] ++ be 3 (len (snd m)), snd m) /\ ahead x1 tr ts' r' d'
    | Err e => e = WouldBlock /\ ahead x1 tr ts r' d'
    | _ => True
    end).
  { clear H. intros x2 ((D & Q & Wf & Fr & Rok) & Hd) Hr H. cbv zeta in H. rewrite D in H.
    pose proof (process_spec _ _ (handshakeFraming_lawful false) Fr) as P.
    assert (Hr3 : forall f, has_read x (set_in x2 (set_frame (x_in x2) f))).
    { intros f. eapply has_read_trans; [exact Hr|]. exists (hl_conn (x_in x2)), f, (hl_recvd (x_in x2)). reflexivity. }
    destruct (first_frame (handshakeFraming false) (pending (hl_frame (x_in x2)))) as [[q rest]|] eqn:Ef.
    - destruct P as (f & P & F1 & F2). rewrite P in H. destruct Wt as [(m & ts' & ->)|(-> & ->)].
      2: { apply heads_done in Hd. destruct Hd as (Hd & _). rewrite Hd in Ef. discriminate Ef. }
      destruct (heads_frame _ _ _ _ _ _ _ _ _ _ Hd Ef) as (-> & H1). injection H as <- <-. split; [apply Hr3|]. exists m, ts'. split; [reflexivity|]. split; [reflexivity|].
      split; [split; [exact D|split; [exact Q|split; [exact Wf|split; [exact F1|exact Rok]]]]|].
      cbn [x_in set_in set_frame hl_conn hl_frame]. rewrite F2. exact H1.
    - destruct P as (f & P & F1 & F2 & _). rewrite P in H.
      assert (A3 : ahead (set_in x2 (set_frame (x_in x2) f)) tr ts r' d').
      { split; [split; [exact D|split; [exact Q|split; [exact Wf|split; [exact F1|exact Rok]]]]|].
        cbn [x_in set_in set_frame hl_conn hl_frame]. rewrite F2. exact Hd. }
      destruct (negb (hl_nonblocking (x_in x)) && is_wb WouldBlock).
      + destruct (IH _ _ _ _ _ _ _ _ A3 Wt H) as (Hr1 & R). split; [eapply has_read_trans; [apply Hr3|exact Hr1]|exact R].
      + injection H as <- <-. split; [apply Hr3|]. auto. }
  destruct (0 <? needed (hl_frame (x_in x)))%nat eqn:Ne.
  - apply Nat.ltb_lt in Ne. pose proof Ah as ((_ & _ & _ & Fr & _) & _).
    pose proof (needed_none _ _ (handshakeFraming_lawful false) Fr Ne) as Hn.
    destruct (hl_readRecord now x) as [x2 r2] eqn:R. destruct (record_ahead _ _ _ _ _ _ _ _ Ah Wt Hn R) as (Hr & [->|([->| ->] & A2)]).
    + injection H as <- <-. auto.
    + exact (Hstep x2 A2 Hr H).
    + destruct (negb (hl_nonblocking (x_in x)) && is_wb WouldBlock).
      * exact (Hstep x2 A2 Hr H).
      * injection H as <- <-. auto.
  - exact (Hstep x Ah (has_read_refl x) H).
Qed.

Lemma readMessage_ahead fuel now x tr ts r' d' x1 rr : ahead x tr ts r' d' -> waits ts d' -> readMessage fuel now x = (x1, rr) ->
  has_read x x1 /\
  match rr with
  | Ok o => exists m ts' hm, o = Some hm /\ ts = M m :: ts' /\ hm = mkHm (fst m) 0 (snd m) false 0 (len (snd m)) None /\ ahead x1 tr ts' r' d'
  | Err e => e = WouldBlock /\ ahead x1 tr ts r' d'
  | _ => True
  end.
Proof.
  intros Ah Wt H. pose proof Ah as ((D & Q & _) & Hd). unfold readMessage in H. rewrite check_empty, set_queue_same, set_in_same in H by exact Q. cbn [sbind] in H.
  destruct (readFrame_loop fuel now x) as [x2 r2] eqn:R. destruct (readFrame_ahead _ _ _ _ _ _ _ _ _ Ah Wt R) as (Hr & P).
  destruct r2 as [[hdr body]|e| |]; cbn [sbind] in H; try (injection H as <- <-; auto; fail).
  destruct P as (m & ts' & -> & Eh & A2). injection Eh as -> ->. pose proof A2 as ((D2 & _) & _). rewrite D2 in H. cbn [message_of app] in H. injection H as <- <-. split; [exact Hr|].
  exists m, ts'. eexists. split; [reflexivity|]. split; [reflexivity|]. split; [|exact A2].
  f_equal. apply N.mod_small. apply N.lt_trans with (2 ^ 24); [|reflexivity].
  clear - Hd. remember (M m :: ts') as ts eqn:Et. revert Et.
  induction Hd as [| |? ? ? m0 ? ? ? ? L _ _|]; intros Et; try discriminate; auto. injection Et as -> ->. exact L.
Qed.

Lemma read_loop_ahead inner now fuel : forall x tr ts r' d' x1 rr, ahead x tr ts r' d' -> waits ts d' -> hr_read_loop fuel inner now x = (x1, rr) ->
  has_read x x1 /\
  match rr with
  | Ok hm => exists m ts', ts = M m :: ts' /\ hm = mkHm (fst m) 0 (snd m) false 0 (len (snd m)) None /\ ahead x1 tr ts' r' d'
  | Err e => e = WouldBlock /\ ahead x1 tr ts r' d'
  | _ => True
  end.
Proof.
  destruct fuel as [|fuel]; intros x tr ts r' d' x1 rr Ah Wt H; cbn [hr_read_loop] in H.
  { injection H as <- <-. split; [apply has_read_refl|exact I]. }
  destruct (readMessage inner now x) as [x2 r2] eqn:R. destruct (readMessage_ahead _ _ _ _ _ _ _ _ _ Ah Wt R) as (Hr & P).
  destruct r2 as [[hm|]|e| |]; try (injection H as <- <-; auto; fail).
  - destruct P as (m & ts' & hm' & [= <-] & Et & Eh & A2). injection H as <- <-. split; [exact Hr|]. exists m, ts'. auto.
  - destruct P as (m & ts' & hm' & [=] & _).
  - destruct P as (-> & A2). injection H as <- <-. change (is_wb WouldBlock) with true. cbn. auto.
Qed.
Lemma read_ahead fuel o w tr ts r' d' w1 rr : ahead (w_ctx w) tr ts r' d' -> waits ts d' -> hr_read fuel o w = (w1, rr) ->
  exists x1, w1 = set_ctx w x1 /\ has_read (w_ctx w) x1 /\
  match rr with
  | Ok hm => exists m ts', ts = M m :: ts' /\ hm = mkHm (fst m) 0 (snd m) false 0 (len (snd m)) None /\ ahead x1 tr ts' r' d'
  | Err e => e = WouldBlock /\ ahead x1 tr ts r' d'
  | _ => True
  end.
Proof.
  intros Ah Wt H. unfold hr_read in H. destruct (hr_read_loop fuel fuel (o_ms o) (w_ctx w)) as [x1 r1] eqn:R. injection H as <- <-.
  exists x1. split; [reflexivity|]. exact (read_loop_ahead _ _ _ _ _ _ _ _ _ _ Ah Wt R).
Qed.

(** More bytes arrive, or are under way. *)
Lemma ahead_more x tr ts r' d' more : ahead x tr ts r' d' -> ahead x (tr ++ more) ts r' (d' ++ more).
Proof. intros (A & B). split; [exact A|]. rewrite app_assoc. now apply heads_more. Qed.

(** ** The writer *)

(** What the writer seals next the reader opens; without a key the record numbers are not looked at. *)
Definition sync (w r : rcore) : Prop :=
  c_aead (cur w) = c_aead (cur r) /\ (c_aead (cur w) <> None -> c_iv (cur w) = c_iv (cur r) /\ c_seq (cur w) = c_seq (cur r)).
Definition wr_ok (w : rcore) : Prop :=
  r_datagram w = false /\ r_dir w = DirWrite /\ cur_ok w /\ match c_aead (cur w) with Some k => keyed_cs (cur w) | None => True end.

Lemma record_opens w r frag rec c' : wr_ok w -> rcore_ok r -> sync w r -> protect w (r_cipher w) (mkPt rtHandshake 0 0 frag) 0 = Ok (rec, c') ->
  (exists hdr body pt, first_frame (recordFraming false) rec = Some (Ok (hdr, body), []) /\ opens r hdr body pt /\ p_type pt = rtHandshake /\ p_fragment pt = frag) /\
  sync (set_cs w (r_cipher w) c') (after_record r) /\ wr_ok (set_cs w (r_cipher w) c') /\ rcore_ok (after_record r).
Proof.
  intros (Dw & Rw & Cw & Kw) (Dr & Rr & Cr) (Sa & Ss) P.
  pose proof (protect_inv _ _ _ _ _ _ P) as (hdr & ct & -> & Hl & Hi & H). apply incr_inv in Hi. destruct Hi as [Hseq Hc']. fold (cur w) in Hseq, Hc', H.
  split; [|split; [|split; [|now apply after_record_ok]]].
  - destruct (c_aead (cur w)) as [k|] eqn:Ka.
    + destruct Kw as ((k1 & E1 & K1 & K2) & Kiv). rewrite Ka in E1. injection E1 as <-.
      destruct Ss as (Si & Sq); [discriminate|].
      destruct (protect_handle w r (r_cipher w) (mkMsg rtHandshake frag 0) _ c' false P) as (hdr1 & ct1 & E & Hff & Hhf).
      { unfold matches. fold (cur w). rewrite Dr, Ka. repeat split; auto. }
      { exact Rr. }
      { fold (cur w). rewrite Ka. split; [exact K1|discriminate]. }
      { now rewrite <- Sq. }
      exists hdr1, ct1, (mkPt rtHandshake (c_epoch (cur r)) (wire_seq w (r_cipher w)) frag). rewrite Dr in Hff.
      split; [specialize (Hff []); rewrite app_nil_r in Hff; exact Hff|]. split; [|split; reflexivity]. split; [intros _; exact Hhf|]. intros Hge. rewrite <- Sq in Hge. lia.
    + destruct H as (_ & -> & Hh). cbn [p_fragment p_type] in *.
      assert (Hn' : N.of_nat (List.length frag) <= 65535) by (unfold len, maxFragmentLen in Hl; lia).
      destruct (recordHeader_spec _ _ _ _ _ _ Hh Hn') as (L1 & L2 & L3 & L4 & L5 & L6). rewrite Dw in L1, L4.
      exists hdr, frag, (mkPt rtHandshake (c_epoch (cur r)) 0 frag).
      split; [|split; [|split; reflexivity]].
      { unfold first_frame. cbn [headerLen recordFraming]. rewrite app_length, L1.
        destruct (Nat.ltb_spec (recordHeaderLen false + List.length frag) (recordHeaderLen false)); [lia|].
        rewrite firstn_app_n, skipn_app_n by auto. change (frameLen _ hdr) with (frameLen (recordFraming false) hdr). rewrite L4.
        rewrite Nat.ltb_irrefl, firstn_all, skipn_all. reflexivity. }
      assert (A : handleFrame r false hdr frag = match incrementSequenceNumber (cur r) with
                                                 | Ok c => (set_cs r (r_cipher r) c, Ok (mkPt rtHandshake (c_epoch (cur r)) 0 frag))
                                                 | Err e => (r, Err e) | Panic => (r, Panic) | Fuel => (r, Fuel) end).
      { unfold handleFrame. destruct hdr as [|t0 hdr']; [congruence|]. simpl hd in L2. subst t0. rewrite (valid_type_test rtHandshake) by (unfold valid_type; simpl; auto).
        rewrite Dr, L5. destruct (N.ltb_spec (maxFragmentLen + 256) (N.of_nat (List.length frag))); [unfold len in *; lia|].
        rewrite Nat2N.id, firstn_all, Nat.sub_diag. cbn [repeat]. rewrite app_nil_r. cbn [bind]. fold (cur r). rewrite <- Sa. cbn [bind p_fragment p_type p_seq].
        destruct (N.ltb_spec maxFragmentLen (len frag)); [lia|]. destruct (incrementSequenceNumber (cur r)); reflexivity. }
      unfold opens. rewrite A. split.
      * intros Sq. rewrite incr_ok by exact Sq. reflexivity.
      * intros Sq. unfold incrementSequenceNumber. destruct (N.leb_spec (2 ^ 48 - 1) (c_seq (cur r))); [reflexivity|lia].
  - unfold sync, after_record. rewrite !cur_set by auto. rewrite Hc'. cbn [c_aead c_iv c_seq]. split; [exact Sa|]. intros Hn. destruct (Ss Hn) as (-> & ->). auto.
  - split; [exact Dw|]. split; [exact Rw|]. split; [now apply cur_ok_set|]. rewrite cur_set by auto. rewrite Hc'. cbn [c_aead]. destruct (c_aead (cur w)) as [k|] eqn:Ka; [|exact I].
    unfold keyed_cs in *. cbn [c_aead c_iv]. now rewrite <- Ka.
Qed.

Lemma chunks_heads chunks : forall l l' r, wr_ok (l_core l) -> rcore_ok r -> sync (l_core l) r -> Forall (fun c => c <> []) chunks ->
  writes l (map hs_chunk chunks) = (l', Ok tt) ->
  exists recs r', l_out l' = l_out l ++ recs /\ wr_ok (l_core l') /\ rcore_ok r' /\ sync (l_core l') r' /\
    l_frame l' = l_frame l /\ l_in l' = l_in l /\ l_cached l' = l_cached l /\ forall p, heads r p (concat recs) [] r' (p ++ concat chunks) [].
Proof.
  induction chunks as [|c chunks IH]; intros l l' r W R S F H; cbn [map writes] in H.
  - injection H as <-. exists [], r. rewrite app_nil_r. do 7 (split; [auto|]). intros p. cbn [concat]. rewrite app_nil_r. apply h_nil.
  - unfold writeRecordWithPadding in H. cbn [hs_chunk m_type m_content m_pad] in H.
    destruct (protect (l_core l) (r_cipher (l_core l)) (mkPt rtHandshake 0 0 c) 0) as [[rec c']|e| |] eqn:P; try discriminate.
    inversion F as [|? ? Hc F']; subst. destruct (record_opens _ _ _ _ _ W R S P) as ((hdr & body & pt & Hff & O & T & Fr) & S1 & W1 & R1).
    apply (IH _ _ (after_record r)) in H; auto. destruct H as (recs & r' & Ho & W2 & R2 & S2 & A & B & D & Hh). cbn [l_out l_frame l_in l_cached] in *.
    exists (rec :: recs), r'. rewrite Ho, <- app_assoc. do 7 (split; [auto|]). intros p. cbn [concat].
    eapply h_rec; [apply first_frame_app; exact Hff|exact O|exact T|now rewrite Fr|]. cbn [app]. rewrite Fr, app_assoc. apply Hh.
Qed.

Lemma writeMessage_chunks fuel : forall x m start written x' n, hl_datagram (x_out x) = false -> hm_datagram m = false -> x_sent x = [] ->
  (start <= List.length (hm_body m))%nat -> (start = 0 \/ start < List.length (hm_body m))%nat ->
  writeMessage_loop fuel x m start written = (x', Ok n) ->
  exists chunks l', writes (hl_conn (x_out x)) (map hs_chunk chunks) = (l', Ok tt) /\ x' = set_out x (set_conn (x_out x) l') /\
    Forall (fun c => c <> []) chunks /\
    concat chunks = (if (start =? 0)%nat then [hm_type m] ++ be 3 (hm_length m) else []) ++ skipn start (hm_body m).
Proof.
  induction fuel as [|fuel IH]; intros x m start written x' n Hd Hm Hs Hst Hst2 H; cbn [writeMessage_loop] in H; [discriminate|].
  destruct (writeFragment x m start (hl_max (x_out x))) as [x1 [[wrote nx]|e| |]] eqn:Ew; cbn [sbind] in H; try discriminate.
  destruct (writeFragment_tls _ _ _ _ _ _ Hd Hm Hs Ew Hst) as (chunk & l1 & Hw & -> & Hp & Hle & Hge & Hc). cbn [snd] in *.
  assert (Hne : chunk <> []).
  { rewrite Hc. destruct (Nat.eqb_spec start 0) as [->|Hn0]; [discriminate|]. intros E. apply (f_equal (@List.length _)) in E.
    cbn [app] in E. rewrite firstn_length, skipn_length in E. cbn [List.length] in E. lia. }
  destruct (Nat.leb_spec (List.length (hm_body m)) nx) as [Hdone|Hmore].
  - injection H as <- _. exists [chunk], l1. split; [exact Hw|]. split; [reflexivity|]. split; [repeat constructor; exact Hne|]. cbn [concat]. rewrite app_nil_r, Hc. f_equal.
    rewrite firstn_all2; auto. rewrite skipn_length. lia.
  - apply IH in H; auto. destruct H as (chunks & l' & Hw' & -> & Hf & Hc').
    exists (chunk :: chunks), l'. split; [|split; [reflexivity|split; [constructor; auto|]]].
    + change (map hs_chunk (chunk :: chunks)) with ([hs_chunk chunk] ++ map hs_chunk chunks). rewrite (writes_app _ _ _ _ Hw). exact Hw'.
    + cbn [concat]. rewrite Hc, Hc'. destruct (Nat.eqb_spec nx 0) as [->|_]; [lia|]. cbn [app].
      rewrite <- app_assoc. f_equal. apply firstn_skipn_join. lia.
Qed.

Definition tx_ok (x : hctx) : Prop :=
  hl_datagram (x_out x) = false /\ x_sent x = [] /\ hl_queued (x_out x) = [] /\ hl_max (x_out x) = N.to_nat 16384 /\ wr_ok (l_core (hl_conn (x_out x))).
(** A message as it is sent over a stream. *)
Definition tls_msg (m : hmsg) : Prop :=
  hm_datagram m = false /\ hm_offset m = 0 /\ hm_length m = len (hm_body m) mod 2 ^ 32 /\ hm_cipher m = None /\ len (hm_body m) < 2 ^ 24.
Definition pair_of (m : hmsg) : byte * bytes := (hm_type m, hm_body m).

(** The writing side has put these records out, and nothing else has changed. *)
Definition has_put (x x1 : hctx) (recs : list bytes) : Prop :=
  exists l, x1 = set_out x (set_conn (x_out x) l) /\ l_out l = l_out (hl_conn (x_out x)) ++ recs.

Lemma queue_heads x m x1 r : tx_ok x -> tls_msg m -> rcore_ok r -> sync (l_core (hl_conn (x_out x))) r -> queueMessage x m = (x1, Ok tt) ->
  exists recs r1, has_put x x1 recs /\ tx_ok x1 /\ rcore_ok r1 /\ sync (l_core (hl_conn (x_out x1))) r1 /\
    heads r [] (concat recs) [M (pair_of m)] r1 [] [].
Proof.
  intros (D & Se & Q & Mx & W) (Md & Mo & Ml & Mc & Mb) R S H. unfold queueMessage in H. rewrite D in H. cbn [writeMessages] in H.
  destruct (writeMessage x m) as [x2 r2] eqn:Ew. destruct r2 as [n2|e| |]; cbn [sbind bind] in H; try discriminate. injection H as <-.
  unfold writeMessage in Ew. destruct (_ <? _); [discriminate|]. apply writeMessage_chunks in Ew; auto; [|lia].
  destruct Ew as (chunks & l1 & Hw & -> & Hne & Hc). destruct (chunks_heads _ _ _ r W R S Hne Hw) as (recs & r1 & Ho & W1 & R1 & S1 & _ & _ & _ & Hh).
  exists recs, r1. split; [exists l1; auto|]. split; [split; [exact D|split; [exact Se|split; [exact Q|split; [exact Mx|exact W1]]]]|].
  split; [exact R1|]. split; [exact S1|]. specialize (Hh []). cbn [app] in Hh. cbn [Nat.eqb skipn] in Hc.
  assert (E : concat chunks = tls_wire (pair_of m) ++ []).
  { rewrite Hc, Ml, N.mod_small by (eapply N.lt_trans; [exact Mb|reflexivity]). unfold tls_wire, pair_of. cbn [fst snd]. now rewrite app_nil_r, <- app_assoc. }
  rewrite E in Hh. change [M (pair_of m)] with ([] ++ [M (pair_of m)]). eapply heads_trans; [exact Hh|]. apply h_msg; [exact Mb|]. apply h_nil.
Qed.
