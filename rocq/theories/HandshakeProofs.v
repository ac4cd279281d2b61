(** Handshake messages over a stream. *)
From Verif Require Import Base Frame FrameProofs Record RecordSpec RecordProofs RecordProofs2 Timer Handshake HandshakeSpec.

(** ** Records of a stream, read one at a time *)

Definition rl_wf (l : rlayer) : Prop :=
  l_cached l = None /\ fr_ok (recordFraming (r_datagram (l_core l))) (l_frame l) /\ no_errors (l_in l).
Definition rl_data (l : rlayer) : bytes := pending (l_frame l) ++ data_of (l_in l).

Lemma readRecord_step old l pts : rl_wf l -> record_stream old (l_core l) (rl_data l) pts ->
  exists l' r, readRecordE old l = (l', r) /\ rl_wf l' /\ l_out l' = l_out l /\ (List.length (l_in l') <= List.length (l_in l))%nat /\
    match pts with
    | [] => r = Err WouldBlock /\ l_core l' = l_core l /\ record_stream old (l_core l') (rl_data l') []
    | pt :: pts' =>
        (r = Ok pt /\ record_stream old (l_core l') (rl_data l') pts' /\
         exists h b, handleFrame (l_core l) old h b = (l_core l', Ok pt)) \/
        (r = Err WouldBlock /\ l_core l' = l_core l /\ record_stream old (l_core l') (rl_data l') pts /\ (List.length (l_in l') < List.length (l_in l))%nat)
    end.
Proof.
  intros (Hc & F & E) H. unfold readRecordE, nextRecord. rewrite Hc.
  destruct (nextFrame_spec _ (l_in l) (l_frame l) (recordFraming_lawful (r_datagram (l_core l))) F E) as (c' & f' & r & E1 & F' & N' & Hl & HH).
  rewrite E1. fold (rl_data l) in HH.
  inversion H as [r0 data0 E0|r0 data hdr body rest core pt pts' Hff Hhf Hrest]; subst.
  - destruct HH as [HH|(-> & Hp & Hcase)].
    + exfalso. congruence.
    + eexists _, _. split; [reflexivity|]. cbn [l_core l_frame l_in l_out l_cached].
      split; [split; auto|]. split; [reflexivity|]. split; [exact Hl|]. split; [reflexivity|]. split; [reflexivity|].
      constructor. unfold rl_data. cbn [l_frame l_in]. now rewrite Hp.
  - destruct HH as [HH|(-> & Hp & Hcase)].
    + rewrite Hff in HH. injection HH as <- ->. cbn [l_core]. rewrite Hhf.
      eexists _, _. split; [reflexivity|]. cbn [l_core l_frame l_in l_out l_cached].
      split; [split; [reflexivity|split; [|exact N']]; cbn [l_core l_frame]; rewrite (handleFrame_datagram _ _ _ _ _ _ Hhf); exact F'|].
      split; [reflexivity|]. split; [exact Hl|]. left. split; [reflexivity|]. split; [exact Hrest|]. eauto.
    + assert (Hlt : (List.length c' < List.length (l_in l))%nat).
      { destruct Hcase as [Hlt|[-> Hn]]; auto. simpl data_of in Hp. rewrite app_nil_r in Hp. rewrite Hp, Hff in Hn. discriminate. }
      eexists _, _. split; [reflexivity|]. cbn [l_core l_frame l_in l_out l_cached].
      split; [split; auto|]. split; [reflexivity|]. split; [exact Hl|]. right. split; [reflexivity|]. split; [reflexivity|].
      split; [|exact Hlt]. unfold rl_data at 1. cbn [l_frame l_in]. rewrite Hp. exact H.
Qed.

(** What a writer's records give a reader in step with it (protected or not). *)
Lemma writes_stream ms : forall l l' r,
  writes l ms = (l', Ok tt) -> matches (l_core l) r (r_cipher (l_core l)) -> r_datagram r = false -> r_dir r = DirRead ->
  cur_ok (l_core l) -> cur_ok r ->
  match c_aead (cur (l_core l)) with Some k => aead_ok k /\ Forall (fun m => m_type m <> x00) ms | None => Forall (fun m => valid_type (m_type m)) ms end ->
  exists recs pts, l_out l' = l_out l ++ recs /\ record_stream false r (concat recs) pts /\
    Forall2 (fun m pt => p_type pt = m_type m /\ p_fragment pt = m_content m /\ p_epoch pt = c_epoch (cur r)) ms pts /\
    matches (l_core l') (fold_left (fun r _ => set_cs r (r_cipher r) (mkCs (c_epoch (cur r)) (c_seq (cur r) + 1) (c_iv (cur r)) (c_aead (cur r)))) ms r) (r_cipher (l_core l')).
Proof.
  induction ms as [|m ms IH]; intros l l' r H M Dg Dr Cw Cr Hk; cbn [writes] in H.
  - injection H as <-. exists [], []. rewrite app_nil_r. split; [reflexivity|]. split; [constructor; destruct (r_datagram r); reflexivity|]. split; [constructor|exact M].
  - unfold writeRecordWithPadding in H.
    destruct (protect (l_core l) (r_cipher (l_core l)) (mkPt (m_type m) 0 0 (m_content m)) (m_pad m)) as [[rec c']|e| |] eqn:Ep; try discriminate.
    pose proof (protect_inv _ _ _ _ _ _ Ep) as (_ & _ & _ & _ & Hi & _). apply incr_inv in Hi. destruct Hi as [Hseq Hc'].
    pose proof M as (Md & Mk & Mi & Ms). rewrite Dg in Ms.
    fold (cur (l_core l)) in Hseq, Hc', Mk, Mi, Ms.
    destruct (protect_handle (l_core l) r (r_cipher (l_core l)) m rec c' false Ep M Dr) as (hdr & ct & -> & Hff & Hhf).
    { fold (cur (l_core l)). destruct (c_aead (cur (l_core l))) as [k|].
      - destruct Hk as [K1 K2]. inversion K2; subst. auto.
      - inversion Hk; auto. }
    { rewrite <- Ms. exact Hseq. }
    set (r' := set_cs r (r_cipher r) (mkCs (c_epoch (cur r)) (c_seq (cur r) + 1) (c_iv (cur r)) (c_aead (cur r)))) in *.
    set (l1 := mkRl (set_cs (l_core l) (r_cipher (l_core l)) c') (l_frame l) (l_cached l) (l_in l) (l_out l ++ [hdr ++ ct])) in *.
    assert (Cu : cur r' = mkCs (c_epoch (cur r)) (c_seq (cur r) + 1) (c_iv (cur r)) (c_aead (cur r))) by (apply cur_set; auto).
    assert (Cl : cur (l_core l1) = c') by (apply cur_set; auto).
    destruct (IH l1 l' r') as (recs & pts & E1 & E2 & E3 & E4); auto.
    { unfold matches. change (r_datagram (l_core l1)) with (r_datagram (l_core l)). change (r_datagram r') with (r_datagram r).
      rewrite Dg. split; [congruence|]. fold (cur (l_core l1)). rewrite Cl, Cu, Hc'. cbn [c_aead c_iv c_seq c_epoch].
      split; [congruence|]. split; [congruence|]. congruence. }
    { apply cur_ok_set; auto. }
    { apply cur_ok_set; auto. }
    { rewrite Cl, Hc'. cbn [c_aead]. destruct (c_aead (cur (l_core l))) as [k|].
      - destruct Hk as [K1 K2]. inversion K2; subst. auto.
      - inversion Hk; auto. }
    exists ((hdr ++ ct) :: recs), (mkPt (m_type m) (c_epoch (cur r)) (wire_seq (l_core l) (r_cipher (l_core l))) (m_content m) :: pts).
    split; [rewrite E1; cbn [l_out l1]; rewrite <- app_assoc; reflexivity|].
    split; [cbn [concat]; eapply rs_cons; [apply Hff|exact Hhf|exact E2]|].
    split; [|exact E4]. constructor; [auto|]. rewrite Cu in E3. exact E3.
Qed.

Lemma writes_app a : forall l l1 b, writes l a = (l1, Ok tt) -> writes l (a ++ b) = writes l1 b.
Proof.
  induction a as [|m a IH]; intros l l1 b H; cbn [writes app] in *; [now injection H as ->|].
  destruct (writeRecordWithPadding _ _ _ _) as [l2 [[]| | |]]; try discriminate. now apply IH.
Qed.

(** ** The writer *)

Definition hs_chunk (b : bytes) : msg := mkMsg rtHandshake b 0.
Definition tls_wire (m : byte * bytes) : bytes := [fst m] ++ be 3 (len (snd m)) ++ snd m.

Lemma fragmentAcked_nil s o n : fragmentAcked [] s o n = false.
Proof. reflexivity. Qed.

Lemma writeFragment_tls x m start room x' r : hl_datagram (x_out x) = false -> hm_datagram m = false -> x_sent x = [] ->
  writeFragment x m start room = (x', Ok r) -> (start <= List.length (hm_body m))%nat ->
  exists chunk l', writes (hl_conn (x_out x)) [hs_chunk chunk] = (l', Ok tt) /\ x' = set_out x (set_conn (x_out x) l') /\
    (start < snd r \/ List.length (hm_body m) <= start)%nat /\ (snd r <= List.length (hm_body m))%nat /\ (start <= snd r)%nat /\
    chunk = (if (start =? 0)%nat then [hm_type m] ++ be 3 (hm_length m) else []) ++ firstn (snd r - start) (skipn start (hm_body m)).
Proof.
  intros Hd Hm Hs H Hst. unfold writeFragment in H. rewrite Hd, Hm, Hs in H.
  set (hdrlen := if (start =? 0)%nat then handshakeHeaderLen false else 0%nat) in *.
  destruct (Nat.leb_spec room hdrlen) as [|Hroom]; [discriminate|].
  set (bodylen := Nat.min (List.length (hm_body m) - start) (room - hdrlen)) in *.
  rewrite fragmentAcked_nil in H.
  set (buf := if (0 <? hdrlen)%nat then _ else _) in H.
  destruct (writeRecord (hl_conn (x_out x)) (mkPt rtHandshake 0 0 buf)) as [conn rr] eqn:Ew.
  injection H as <- H. destruct rr as [[]| | |]; try discriminate. cbn [bind] in H. apply Ok_inj in H. subst r. cbn [snd].
  exists buf, conn. split; [|split; [reflexivity|]].
  - cbn [writes hs_chunk m_type m_content m_pad]. unfold writeRecord in Ew. now rewrite Ew.
  - split; [subst bodylen; lia|]. split; [subst bodylen; lia|]. split; [lia|].
    subst buf hdrlen. replace (start + bodylen - start)%nat with bodylen by lia.
    destruct (Nat.eqb_spec start 0) as [->|Hne]; [|reflexivity].
    cbn [Nat.ltb Nat.leb handshakeHeaderLen hm_marshal hm_type hm_length hm_datagram hm_body].
    unfold hm_marshal. cbn [hm_type hm_length hm_datagram hm_body]. cbn [app]. reflexivity.
Qed.

Lemma skipn_skipn' {A} (l : list A) a b : skipn a (skipn b l) = skipn (a + b) l.
Proof. revert l; induction b as [|b IH]; intros l; [now rewrite Nat.add_0_r|]. rewrite Nat.add_succ_r. destruct l; [now rewrite !skipn_nil|]. apply IH. Qed.
Lemma firstn_skipn_join {A} (l : list A) a b : (a <= b)%nat -> firstn (b - a) (skipn a l) ++ skipn b l = skipn a l.
Proof.
  intros H. rewrite <- (firstn_skipn (b - a) (skipn a l)) at 2. f_equal. rewrite skipn_skipn'. f_equal. lia.
Qed.

Lemma writeMessage_tls fuel : forall x m start written x' n, hl_datagram (x_out x) = false -> hm_datagram m = false -> x_sent x = [] ->
  (start <= List.length (hm_body m))%nat ->
  writeMessage_loop fuel x m start written = (x', Ok n) ->
  exists chunks l', writes (hl_conn (x_out x)) (map hs_chunk chunks) = (l', Ok tt) /\ x' = set_out x (set_conn (x_out x) l') /\
    concat chunks = (if (start =? 0)%nat then [hm_type m] ++ be 3 (hm_length m) else []) ++ skipn start (hm_body m).
Proof.
  induction fuel as [|fuel IH]; intros x m start written x' n Hd Hm Hs Hst H; cbn [writeMessage_loop] in H; [discriminate|].
  destruct (writeFragment x m start (hl_max (x_out x))) as [x1 [[wrote nx]|e| |]] eqn:Ew; cbn [sbind] in H; try discriminate.
  destruct (writeFragment_tls _ _ _ _ _ _ Hd Hm Hs Ew Hst) as (chunk & l1 & Hw & -> & Hp & Hle & Hge & Hc). cbn [snd] in *.
  destruct (Nat.leb_spec (List.length (hm_body m)) nx) as [Hdone|Hmore].
  - injection H as <- _. exists [chunk], l1. split; [exact Hw|]. split; [reflexivity|]. cbn [concat]. rewrite app_nil_r, Hc. f_equal.
    rewrite firstn_all2; auto. rewrite skipn_length. lia.
  - apply IH in H; auto. destruct H as (chunks & l' & Hw' & -> & Hc').
    exists (chunk :: chunks), l'. split; [|split; [reflexivity|]].
    + change (map hs_chunk (chunk :: chunks)) with ([hs_chunk chunk] ++ map hs_chunk chunks). rewrite (writes_app _ _ _ _ Hw). exact Hw'.
    + cbn [concat]. rewrite Hc, Hc'. destruct (Nat.eqb_spec nx 0) as [->|_]; [lia|]. cbn [app].
      rewrite <- app_assoc. f_equal. apply firstn_skipn_join. lia.
Qed.

Lemma sends_tls ms : forall x x', hl_datagram (x_out x) = false -> x_sent x = [] -> Forall (fun m => len (snd m) < 2 ^ 24) ms ->
  sends x ms = (x', Ok tt) ->
  exists chunks l', writes (hl_conn (x_out x)) (map hs_chunk chunks) = (l', Ok tt) /\ hl_conn (x_out x') = l' /\
    concat chunks = concat (map tls_wire ms).
Proof.
  induction ms as [|[t b] ms IH]; intros x x' Hd Hs Hf H; cbn [sends] in H.
  - injection H as <-. exists [], (hl_conn (x_out x)). auto.
  - cbv zeta in H. unfold messageFromBody in H. cbv iota beta in H.
    inversion Hf as [|? ? Hb Hf']; subst. cbn [snd] in Hb.
    unfold queueMessage in H. cbn [x_out set_out set_queue hl_datagram] in H. rewrite Hd in H.
    match type of H with context [writeMessages ?a ?b] => destruct (writeMessages a b) as [x1 r1] eqn:Ew end.
    cbn [writeMessages] in Ew.
    match type of Ew with context [writeMessage ?a ?b] => destruct (writeMessage a b) as [x2 r2] eqn:Ew2 end.
    destruct r2 as [n2|e| |]; cbn [sbind] in Ew; injection Ew as <- <-; cbn [bind] in H; try discriminate.
    unfold writeMessage in Ew2. cbn [hm_body] in Ew2. destruct (_ <? _); [discriminate|].
    eapply writeMessage_tls in Ew2; [|cbn [x_out set_out set_queue hl_datagram]; auto; try (simpl; lia)..].
    destruct Ew2 as (chunks & l1 & Hw & -> & Hc). cbn [x_out set_out set_queue hl_conn set_conn] in Hw.
    apply IH in H; auto. destruct H as (chunks' & l' & Hw' & Hx & Hc').
    exists (chunks ++ chunks'), l'. cbn [x_out set_out set_queue hl_conn set_conn] in Hw'.
    split; [rewrite map_app, (writes_app _ _ _ _ Hw); exact Hw'|]. split; [exact Hx|].
    rewrite concat_app, Hc, Hc'. cbn [map concat]. f_equal. cbn [Nat.eqb hm_type hm_length hm_body skipn]. unfold tls_wire. cbn [fst snd].
    rewrite N.mod_small by (eapply N.lt_trans; [exact Hb|reflexivity]). now rewrite <- app_assoc.
Qed.

(** ** The reader *)

Lemma handshakeFraming_lawful b : lawful_framing (handshakeFraming b).
Proof. intros h _. eexists. split; [reflexivity|]. repeat split; discriminate. Qed.
Lemma handshakeHeaderLen_pos b : (0 < headerLen (handshakeFraming b))%nat.
Proof. destruct b; simpl; lia. Qed.

Lemma tls_wire_frame m rest : len (snd m) < 2 ^ 24 ->
  first_frame (handshakeFraming false) (tls_wire m ++ rest) = Some (Ok ([fst m] ++ be 3 (len (snd m)), snd m), rest).
Proof.
  intros H.
  set (hdr := [fst m] ++ be 3 (len (snd m))).
  assert (Lh : List.length hdr = 4%nat) by (subst hdr; rewrite app_length, be_length; reflexivity).
  replace (tls_wire m ++ rest) with (hdr ++ snd m ++ rest) by (subst hdr; unfold tls_wire; now rewrite <- !app_assoc).
  unfold first_frame. cbn [headerLen handshakeFraming handshakeHeaderLen].
  assert (Ll : List.length (hdr ++ snd m ++ rest) = (4 + List.length (snd m ++ rest))%nat) by (rewrite app_length, Lh; reflexivity).
  rewrite Ll. destruct (Nat.ltb_spec (4 + List.length (snd m ++ rest)) 4); [lia|].
  rewrite firstn_app_n, skipn_app_n by auto.
  assert (El : N.to_nat (unbe (skipn (List.length hdr - 3) hdr)) = List.length (snd m)).
  { rewrite Lh. change (4 - 3)%nat with 1%nat. subst hdr. cbn [app skipn].
    rewrite unbe_be_small by exact H. unfold len. lia. }
  change (frameLen (handshakeFraming false) hdr) with (Ok (N.to_nat (unbe (skipn (List.length hdr - 3) hdr)))). cbv iota. rewrite El, app_length. destruct (Nat.ltb_spec (List.length (snd m) + List.length rest) (List.length (snd m))); [lia|].
  rewrite firstn_app_n, skipn_app_n by auto. reflexivity.
Qed.

(** The state of a reader with records [pts] still to come. *)
Definition reading (dg : bool) (x : hctx) (pts : list plaintext) : Prop :=
  let h := x_in x in
  hl_datagram h = dg /\ rl_wf (hl_conn h) /\ fr_ok (handshakeFraming dg) (hl_frame h) /\
  r_datagram (l_core (hl_conn h)) = dg /\ record_stream dg (l_core (hl_conn h)) (rl_data (hl_conn h)) pts /\
  Forall (fun pt => p_type pt = rtHandshake /\ p_epoch pt = rl_epoch (l_core (hl_conn h))) pts.
Definition stream (x : hctx) (pts : list plaintext) : bytes := pending (hl_frame (x_in x)) ++ concat (map p_fragment pts).
Definition inputs (x : hctx) : nat := List.length (l_in (hl_conn (x_in x))).

Lemma handleFrame_epoch r old h b r' x : handleFrame r old h b = (r', x) -> rl_epoch r' = rl_epoch r.
Proof.
  unfold handleFrame. destruct h as [|t h]; [congruence|]. destruct (negb _); [congruence|]. destruct (_ <? _); [congruence|].
  match goal with |- context [match ?e with _ => _ end] => destruct e as [[[p i] c]|e'| |] eqn:Eb end; try congruence.
  intros [= <- <-]. inv_bind Eb as [sq j] E0. inv_bind Eb as p1 E1. destruct (_ <? _); [discriminate|]. inv_bind Eb as c1 E2. apply Ok_inj in Eb.
  assert (Ei : i = j) by congruence. assert (Ec : c = c1) by congruence. subst i c.
  apply incr_inv in E2. destruct E2 as [_ ->].
  unfold rl_epoch. change (r_cipher (set_cs r j _)) with (r_cipher r). unfold get_cs, set_cs. cbn [r_heap].
  destruct (Nat.eq_dec j (r_cipher r)) as [->|Hne]; [|now rewrite set_nth_other].
  destruct (Nat.ltb_spec (r_cipher r) (List.length (r_heap r))).
  - now rewrite set_nth_same.
  - now rewrite !nth_overflow by (rewrite ?set_nth_length; auto).
Qed.

(** What reading records leaves alone. *)
Definition kept (x' x : hctx) : Prop :=
  hl_nonblocking (x_in x') = hl_nonblocking (x_in x) /\ hl_msgSeq (x_in x') = hl_msgSeq (x_in x) /\ hl_queued (x_in x') = hl_queued (x_in x).
Lemma kept_refl x : kept x x.
Proof. repeat split. Qed.
Lemma kept_trans x y z : kept x y -> kept y z -> kept x z.
Proof. intros (A & B & C) (D & E & F). split; [congruence|]. split; congruence. Qed.

Lemma read_handshake_record dg now x pts : reading dg x pts ->
  exists x' r, hl_readRecord now x = (x', r) /\ kept x' x /\ 
    match pts with
    | [] => r = Err WouldBlock /\ reading dg x' [] /\ stream x' [] = stream x []
    | pt :: pts' =>
        (r = Ok tt /\ reading dg x' pts' /\ stream x' pts' = stream x pts /\ (inputs x' <= inputs x)%nat) \/
        (r = Err WouldBlock /\ reading dg x' pts /\ stream x' pts = stream x pts /\ (inputs x' < inputs x)%nat)
    end.
Proof.
  intros (Hd & Hw & Hf & Hg & Hs & Hp). unfold hl_readRecord. rewrite Hd.
  destruct (readRecord_step dg (hl_conn (x_in x)) pts Hw Hs) as (l' & r & Er & Hw' & _ & Hin & Hcase). rewrite Er.
  destruct pts as [|pt pts'].
  - destruct Hcase as (-> & Hcore & Hs'). eexists _, _. split; [reflexivity|]. split; [repeat split|]. split; [reflexivity|].
    split; [|reflexivity]. unfold reading. cbn [x_in set_in set_conn hl_datagram hl_conn hl_frame].
    rewrite Hcore in *. do 5 (split; [auto|]). constructor.
  - inversion Hp as [|? ? (Ht & He) Hp']; subst.
    destruct Hcase as [(-> & Hs' & h & b & Hh)|(-> & Hcore & Hs' & Hlt)].
    + pose proof (handleFrame_epoch _ _ _ _ _ _ Hh) as Ee. pose proof (handleFrame_datagram _ _ _ _ _ _ Hh) as Eg.
      rewrite Ht. change (Byte.eqb rtHandshake rtHandshake) with true. change (Byte.eqb rtHandshake rtAck) with false.
      change (Byte.eqb rtHandshake rtAlert) with false. cbn [orb negb]. rewrite He, Ee, N.eqb_refl. cbn [negb].
      eexists _, _. split; [reflexivity|]. split; [repeat split|]. left. split; [reflexivity|].
      unfold reading, stream, inputs. cbn [x_in set_in set_conn set_frame set_recvd hl_datagram hl_conn hl_frame].
      split; [|split; [rewrite pending_add, <- app_assoc; reflexivity|exact Hin]].
      rewrite Eg, Ee. do 5 (split; [auto|]). exact Hp'.
    + eexists _, _. split; [reflexivity|]. split; [repeat split|]. right. split; [reflexivity|].
      unfold reading, stream, inputs. cbn [x_in set_in set_conn set_frame set_recvd hl_datagram hl_conn hl_frame].
      rewrite Hcore in *. split; [|split; [reflexivity|exact Hlt]]. do 5 (split; [auto|]). exact Hp.
Qed.

(** How many more calls may return would-block. *)
Definition togo (x : hctx) (pts : list plaintext) : nat :=
  2 * (inputs x + List.length pts) + (if (needed (hl_frame (x_in x)) =? 0)%nat then 1 else 0).

Lemma process_reading dg x pts : reading dg x pts ->
  exists f r, process (handshakeFraming dg) (hl_frame (x_in x)) = (f, r) /\ reading dg (set_in x (set_frame (x_in x) f)) pts /\
    match first_frame (handshakeFraming dg) (pending (hl_frame (x_in x))) with
    | None => r = Err WouldBlock /\ stream (set_in x (set_frame (x_in x) f)) pts = stream x pts /\ (0 < needed f)%nat
    | Some (r', rest) => r = r' /\ stream (set_in x (set_frame (x_in x) f)) pts = rest ++ concat (map p_fragment pts)
    end.
Proof.
  intros (Hd & Hw & Hf & Hg & Hs & Hp).
  pose proof (process_spec _ _ (handshakeFraming_lawful dg) Hf) as P.
  destruct (first_frame (handshakeFraming dg) (pending (hl_frame (x_in x)))) as [[r rest]|].
  - destruct P as (f & E & F & R). exists f, r. split; [exact E|]. split.
    + unfold reading. cbn [x_in set_in set_frame hl_datagram hl_conn hl_frame]. do 5 (split; [auto|]). exact Hp.
    + split; [reflexivity|]. unfold stream. cbn [x_in set_in set_frame hl_frame]. now rewrite R.
  - destruct P as (f & E & F & R & N0). exists f, (Err WouldBlock). split; [exact E|]. split.
    + unfold reading. cbn [x_in set_in set_frame hl_datagram hl_conn hl_frame]. do 5 (split; [auto|]). exact Hp.
    + split; [reflexivity|]. split; [|exact N0]. unfold stream. cbn [x_in set_in set_frame hl_frame]. now rewrite R.
Qed.

Lemma needed_none d f : lawful_framing d -> fr_ok d f -> (0 < needed f)%nat -> first_frame d (pending f) = None.
Proof.
  intros L F H. pose proof (process_spec d f L F) as P. destruct (first_frame d (pending f)) as [[r rest]|] eqn:Ef; auto. exfalso.
  destruct P as (f' & P1 & _). unfold process in P1. cbn [process_loop] in P1.
  destruct (Nat.eqb_spec (needed f) 0) as [|_]; [lia|]. cbn [negb] in P1. injection P1 as <- <-.
  unfold first_frame in Ef. destruct (Nat.ltb_spec (List.length (pending f)) (headerLen d)) as [|Hl]; [discriminate|].
  destruct (L (firstn (headerLen d) (pending f))) as (r0 & E0 & R1 & R2 & R3); [rewrite firstn_length; lia|].
  rewrite E0 in Ef. destruct r0 as [k|e| |]; try congruence.
  destruct (_ <? _)%nat; discriminate.
Qed.

(** Reading one frame that is on its way. *)
Lemma readFrame_spec dg fuel : forall now x pts hb rest, reading dg x pts -> (togo x pts < fuel)%nat ->
  first_frame (handshakeFraming dg) (stream x pts) = Some (Ok hb, rest) ->
  exists x' r pts', readFrame_loop fuel now x = (x', r) /\ reading dg x' pts' /\ kept x' x /\
    ((r = Ok hb /\ stream x' pts' = rest /\ (togo x' pts' <= S (togo x pts))%nat) \/
     (r = Err WouldBlock /\ stream x' pts' = stream x pts /\ (togo x' pts' < togo x pts)%nat)).
Proof.
  induction fuel as [|fuel IH]; intros now x pts hb rest Hr Hfu Hff; [lia|]. cbn [readFrame_loop].
  assert (Hstep : forall x1 pts1, reading dg x1 pts1 -> kept x1 x -> stream x1 pts1 = stream x pts ->
     (2 * (inputs x1 + List.length pts1) <= togo x pts)%nat ->
     (2 * (inputs x1 + List.length pts1) < togo x pts)%nat ->
     exists x' r pts', (let h := x_in x1 in
        let '(f, r) := process (handshakeFraming (hl_datagram h)) (hl_frame h) in
        let x2 := set_in x1 (set_frame h f) in
        match r with
        | Err e => if negb (hl_nonblocking (x_in x)) && is_wb e then readFrame_loop fuel now x2 else (x2, Err e)
        | _ => (x2, r)
        end) = (x', r) /\ reading dg x' pts' /\ kept x' x /\
        ((r = Ok hb /\ stream x' pts' = rest /\ (togo x' pts' <= S (togo x pts))%nat) \/
         (r = Err WouldBlock /\ stream x' pts' = stream x pts /\ (togo x' pts' < togo x pts)%nat))).
  { intros x1 pts1 H1 Hn Hst Hle Hlt. cbv zeta. 
    pose proof H1 as (Hd & _). rewrite Hd.
    destruct (process_reading dg x1 pts1 H1) as (f & r & Ep & H2 & Hres). rewrite Ep.
    assert (Hin : inputs (set_in x1 (set_frame (x_in x1) f)) = inputs x1) by reflexivity.
    destruct (first_frame (handshakeFraming dg) (pending (hl_frame (x_in x1)))) as [[r' rest']|] eqn:Ef.
    - destruct Hres as (-> & Hst2).
      apply first_frame_app with (more := concat (map p_fragment pts1)) in Ef. fold (stream x1 pts1) in Ef. rewrite Hst, Hff in Ef.
      injection Ef as <- ->.
      exists (set_in x1 (set_frame (x_in x1) f)), (Ok hb), pts1. split; [reflexivity|]. split; [exact H2|]. split; [exact Hn|].
      left. split; [reflexivity|]. split; [exact Hst2|]. unfold togo at 1. rewrite Hin. destruct (_ =? _)%nat; lia.
    - destruct Hres as (-> & Hst2 & Hne).
      assert (Htg : togo (set_in x1 (set_frame (x_in x1) f)) pts1 = (2 * (inputs x1 + List.length pts1))%nat).
      { unfold togo. rewrite Hin. cbn [x_in set_in set_frame hl_frame]. destruct (Nat.eqb_spec (needed f) 0); lia. }
      destruct (hl_nonblocking (x_in x)) eqn:Enb; cbn [negb andb].
      + exists (set_in x1 (set_frame (x_in x1) f)), (Err WouldBlock), pts1. split; [reflexivity|]. split; [exact H2|].
        split; [exact Hn|]. right. split; [reflexivity|]. split; [congruence|lia].
      + change (is_wb WouldBlock) with true. cbv iota.
        destruct (IH now (set_in x1 (set_frame (x_in x1) f)) pts1 hb rest H2) as (x' & r & pts' & A & B & D & E); [lia|congruence|].
        exists x', r, pts'. split; [exact A|]. split; [exact B|]. split; [exact (kept_trans _ _ _ D Hn)|].
        rewrite Htg in E. destruct E as [(E1 & E2 & E3)|(E1 & E2 & E3)]; [left|right].
        * split; [auto|]. split; [auto|lia].
        * split; [auto|]. split; [congruence|lia]. }
  destruct (Nat.ltb_spec 0 (needed (hl_frame (x_in x)))) as [Hne|Hz].
  - pose proof Hr as (_ & _ & Hf & _).
    pose proof (needed_none _ _ (handshakeFraming_lawful dg) Hf Hne) as Hnone.
    destruct pts as [|pt pts'].
    { unfold stream in Hff. cbn [map concat] in Hff. rewrite app_nil_r in Hff. congruence. }
    assert (Ht : togo x (pt :: pts') = (2 * (inputs x + S (List.length pts')))%nat).
    { unfold togo. destruct (Nat.eqb_spec (needed (hl_frame (x_in x))) 0); [lia|]. simpl List.length. lia. }
    destruct (read_handshake_record dg now x (pt :: pts') Hr) as (x1 & r1 & E1 & Hnb & [(-> & H1 & Hst & Hin)|(-> & H1 & Hst & Hin)]); rewrite E1.
    + apply (Hstep x1 pts'); auto; lia.
    + change (is_wb WouldBlock) with true. destruct (hl_nonblocking (x_in x)) eqn:Enb; cbn [negb andb].
      * exists x1, (Err WouldBlock), (pt :: pts'). split; [reflexivity|]. split; [exact H1|]. split; [exact Hnb|].
        right. split; [reflexivity|]. split; [exact Hst|]. rewrite Ht. unfold togo. simpl List.length. destruct (_ =? _)%nat; lia.
      * apply (Hstep x1 (pt :: pts')); auto; rewrite Ht; simpl List.length; lia.
  - pose proof (kept_refl x). assert (Ht : togo x pts = (2 * (inputs x + List.length pts) + 1)%nat).
    { unfold togo. destruct (Nat.eqb_spec (needed (hl_frame (x_in x))) 0); lia. }
    apply (Hstep x pts); auto; lia.
Qed.

(** No frame on its way. *)
Lemma readFrame_stuck dg fuel : forall now x pts, reading dg x pts -> first_frame (handshakeFraming dg) (stream x pts) = None ->
  exists x' r pts', readFrame_loop fuel now x = (x', r) /\ reading dg x' pts' /\ kept x' x /\ stream x' pts' = stream x pts /\ (r = Err WouldBlock \/ r = Fuel).
Proof.
  induction fuel as [|fuel IH]; intros now x pts Hr Hff; cbn [readFrame_loop].
  - exists x, Fuel, pts. split; [reflexivity|]. split; [exact Hr|]. split; [apply kept_refl|]. auto.
  - assert (Hstep : forall x1 pts1, reading dg x1 pts1 -> kept x1 x -> stream x1 pts1 = stream x pts ->
      exists x' r pts', (let h := x_in x1 in
        let '(f, r) := process (handshakeFraming (hl_datagram h)) (hl_frame h) in
        let x2 := set_in x1 (set_frame h f) in
        match r with
        | Err e => if negb (hl_nonblocking (x_in x)) && is_wb e then readFrame_loop fuel now x2 else (x2, Err e)
        | _ => (x2, r)
        end) = (x', r) /\ reading dg x' pts' /\ kept x' x /\ stream x' pts' = stream x pts /\ (r = Err WouldBlock \/ r = Fuel)).
    { intros x1 pts1 H1 Hk Hst. cbv zeta. pose proof H1 as (Hd & _). rewrite Hd.
      destruct (process_reading dg x1 pts1 H1) as (f & r & Ep & H2 & Hres). rewrite Ep.
      destruct (first_frame (handshakeFraming dg) (pending (hl_frame (x_in x1)))) as [[r' rest']|] eqn:Ef.
      { apply first_frame_app with (more := concat (map p_fragment pts1)) in Ef. fold (stream x1 pts1) in Ef. congruence. }
      destruct Hres as (-> & Hst2 & _).
      destruct (hl_nonblocking (x_in x)); cbn [negb andb].
      - eexists _, _, pts1. split; [reflexivity|]. split; [exact H2|]. split; [exact Hk|]. split; [congruence|auto].
      - change (is_wb WouldBlock) with true. cbv iota.
        destruct (IH now _ pts1 H2) as (x' & r & pts' & A & B & K & D & E); [congruence|]. exists x', r, pts'. rewrite D, Hst2, Hst in *. pose proof (kept_trans _ _ _ K Hk). auto. }
    destruct (Nat.ltb_spec 0 (needed (hl_frame (x_in x)))) as [Hne|Hz]; [|apply (Hstep x pts); auto using kept_refl].
    destruct (read_handshake_record dg now x pts Hr) as (x1 & r1 & E1 & Hnb & Hcase). rewrite E1.
    assert (Hwb : r1 = Err WouldBlock -> reading dg x1 pts -> stream x1 pts = stream x pts ->
      exists x' r pts', match r1 with
        | Ok _ => (x1, Panic) | Err e => if negb (hl_nonblocking (x_in x)) && is_wb e then 
          (let h := x_in x1 in
           let '(f, r) := process (handshakeFraming (hl_datagram h)) (hl_frame h) in
           let x2 := set_in x1 (set_frame h f) in
           match r with
           | Err e => if negb (hl_nonblocking (x_in x)) && is_wb e then readFrame_loop fuel now x2 else (x2, Err e)
           | _ => (x2, r)
           end) else (x1, Err e)
        | Panic => (x1, Panic) | Fuel => (x1, Fuel) end = (x', r) /\ reading dg x' pts' /\ kept x' x /\ stream x' pts' = stream x pts /\ (r = Err WouldBlock \/ r = Fuel)).
    { intros -> H1 Hst. change (is_wb WouldBlock) with true. destruct (hl_nonblocking (x_in x)) eqn:Enb; cbn [negb andb].
      - exists x1, (Err WouldBlock), pts. split; [reflexivity|]. split; [exact H1|]. split; [exact Hnb|]. auto.
      - cbn [negb andb] in Hstep. apply (Hstep x1 pts); auto. }
    destruct pts as [|pt pts'].
    + destruct Hcase as (-> & H1 & Hst). apply Hwb; auto.
    + destruct Hcase as [(-> & H1 & Hst & _)|(-> & H1 & Hst & _)]; [|apply Hwb; auto]. apply (Hstep x1 pts'); auto.
Qed.

Lemma check_empty x : hl_queued (x_in x) = [] -> checkMessageAvailable x = (set_in x (set_queue (x_in x) (hl_msgSeq (x_in x)) (hl_queued (x_in x))), Ok None).
Proof. intros H. unfold checkMessageAvailable, in_queue. rewrite H. reflexivity. Qed.
Lemma set_queue_same h : set_queue h (hl_msgSeq h) (hl_queued h) = h.
Proof. now destruct h. Qed.
Lemma set_in_same x : set_in x (x_in x) = x.
Proof. now destruct x. Qed.

Lemma received_stuck fuel k : forall now x pts, reading false x pts -> hl_queued (x_in x) = [] -> first_frame (handshakeFraming false) (stream x pts) = None -> received fuel k now x = [].
Proof.
  induction k as [|k IH]; intros now x pts Hr Hq Hff; cbn [received]; [reflexivity|].
  unfold readMessage. rewrite check_empty, set_queue_same, set_in_same by auto. cbn [sbind].
  destruct (readFrame_stuck false fuel now x pts Hr Hff) as (x' & r & pts' & E & Hr' & (_ & _ & Hq') & Hst & Hcase). rewrite E.
  destruct Hcase as [->| ->]; cbn [sbind]; auto.
  change (is_wb WouldBlock) with true. cbv iota. apply (IH now x' pts'); congruence.
Qed.

Lemma received_all n : forall now fuel k x pts ms, reading false x pts -> hl_queued (x_in x) = [] -> stream x pts = concat (map tls_wire ms) -> Forall (fun m => len (snd m) < 2 ^ 24) ms ->
  (togo x pts + 2 * List.length ms <= n)%nat -> (n < fuel)%nat -> (n <= k)%nat ->
  received fuel k now x = map (fun m => Ok (tls_message m)) ms.
Proof.
  induction n as [|n IH]; intros now fuel k x pts ms Hr Hq Hst Hf Hn Hfu Hk.
  - destruct ms; [|simpl in Hn; lia]. apply (received_stuck fuel k now x pts); auto. now rewrite Hst.
  - destruct ms as [|m ms]; [apply (received_stuck fuel k now x pts); auto; now rewrite Hst|].
    inversion Hf as [|? ? Hm Hf']; subst.
    destruct k as [|k]; [lia|]. cbn [received]. unfold readMessage.
    rewrite check_empty, set_queue_same, set_in_same by auto. cbn [sbind].
    cbn [map concat] in Hst.
    assert (Hff : first_frame (handshakeFraming false) (stream x pts) = Some (Ok ([fst m] ++ be 3 (len (snd m)), snd m), concat (map tls_wire ms))).
    { rewrite Hst. now apply tls_wire_frame. }
    cbn [List.length] in Hn.
    destruct (readFrame_spec false fuel now x pts _ _ Hr ltac:(lia) Hff) as (x' & r & pts' & E & Hr' & (_ & _ & Hq') & Hcase). rewrite E. rewrite Hq in Hq'.
    destruct Hcase as [(-> & Hst' & Hto)|(-> & Hst' & Hto)]; cbn [sbind].
    + pose proof Hr' as (Hd & _). rewrite Hd. cbn [message_of app]. 
      rewrite (IH now fuel k x' pts' ms); auto; try lia.
      cbn [map]. f_equal. unfold tls_message. do 2 f_equal. rewrite N.mod_small; auto. eapply N.lt_trans; [exact Hm|reflexivity].
    + change (is_wb WouldBlock) with true. cbv iota.
      apply (IH now fuel k x' pts' (m :: ms)); auto; try (cbn [List.length]; lia). now rewrite Hst', Hst.
Qed.

(** ** Round trip *)

Theorem tls_messages w wcore ms w' x rcore conn now :
  tls_writer w wcore -> sends w ms = (w', Ok tt) -> Forall (fun m => len (snd m) < 2 ^ 24) ms ->
  in_step (cur wcore) (cur rcore) -> cur_ok wcore -> cur_ok rcore -> (forall k, c_aead (cur wcore) = Some k -> aead_ok k) ->
  tls_reader x rcore conn -> segmentation conn (concat (l_out (hl_conn (x_out w')))) ->
  exists F, forall fuel k, (F <= fuel)%nat -> (F <= k)%nat -> received fuel k now x = map (fun m => Ok (tls_message m)) ms.
Proof.
  intros (W1 & W2 & W3 & W4 & W5) Hs Hf (S1 & S2 & S3) Cw Cr Ha (R1 & R2 & R3 & R4 & R5 & R6) (chunks & -> & Hdata).
  destruct (sends_tls ms w w' W1 W2 Hf Hs) as (cs & l' & Hw & Hl & Hc).
  rewrite <- W3 in *.
  destruct (writes_stream (map hs_chunk cs) (hl_conn (x_out w)) l' rcore Hw) as (recs & pts & E1 & E2 & E3 & _); auto.
  { unfold matches. rewrite W5, R5. fold (cur (l_core (hl_conn (x_out w)))). auto. }
  { destruct (c_aead _) as [k|]; [split; [auto|]|].
    - apply Forall_map, Forall_forall. intros; discriminate.
    - apply Forall_map, Forall_forall. intros; unfold valid_type; cbn; auto. }
  rewrite W4 in E1. cbn [app] in E1. subst recs. rewrite <- Hl in E2. 
  assert (Hfr : concat (map p_fragment pts) = concat (map tls_wire ms)).
  { rewrite <- Hc. clear - E3. remember (map hs_chunk cs) as hs eqn:Eh. revert cs Eh.
    induction E3 as [|h p hs pts (_ & Ef & _) _ IH]; intros [|c cs] Eh; try discriminate; auto.
    injection Eh as -> ->. cbn [map concat]. rewrite (IH cs eq_refl), Ef. reflexivity. }
  assert (Hr : reading false x pts).
  { unfold reading. rewrite R1, R3, R4. cbn [fresh l_core]. split; [auto|]. split.
    - split; [reflexivity|]. split; [apply fr_ok_new, recordHeaderLen_pos|].
      exact (proj1 (segmentation_data (map RBytes chunks) _ (ex_intro _ chunks (conj eq_refl Hdata)))).
    - split; [apply fr_ok_new, handshakeHeaderLen_pos|]. split; [exact R5|]. split.
      + unfold rl_data. cbn [fresh l_frame l_in]. destruct (segmentation_data (map RBytes chunks) _ (ex_intro _ chunks (conj eq_refl Hdata))) as [_ ->].
        exact E2.
      + clear - E3. remember (map hs_chunk cs) as hs eqn:Eh. revert cs Eh.
        induction E3 as [|h p hs pts (Et & _ & Ee) _ IH]; intros [|c cs] Eh; try discriminate; constructor.
        * injection Eh as -> ->. split; [exact Et|]. exact Ee.
        * injection Eh as -> ->. eapply IH; reflexivity. }
  exists (S (togo x pts + 2 * List.length ms))%nat. intros fuel k Hfu Hk.
  eapply received_all; eauto; try lia. unfold stream. rewrite R4. exact Hfr.
Qed.

(** ** Sending succeeds within the limits *)

Lemma write_fits l n pt : writable (n + 1) (l_core l) -> protected_len (l_core l) (List.length (p_fragment pt)) <= 2 ^ 14 ->
  exists l', writeRecord l pt = (l', Ok tt) /\ writable n (l_core l') /\ (forall j, protected_len (l_core l') j = protected_len (l_core l) j).
Proof.
  intros (W1 & W2 & W3 & W4) Hp. unfold protected_len in Hp.
  assert (Hv : version_ok (l_core l)) by (intros H; congruence).
  assert (E : exists l', writeRecordWithPadding l pt (r_cipher (l_core l)) 0 = (l', Ok tt)).
  { fold (cur (l_core l)) in *. destruct (c_aead (cur (l_core l))) as [k|] eqn:Ek.
    - destruct (W4 k eq_refl) as (K1 & K2 & K3). eapply write_protected; eauto; [change (c_seq (cur (l_core l)) < 2 ^ 48 - 1); lia|]. unfold len. simpl N.of_nat at 2. rewrite N.add_0_r. exact Hp.
    - apply write_clear; auto. fold (cur (l_core l)). lia. }
  destruct E as [l' E]. exists l'. split; [exact E|].
  unfold writeRecordWithPadding in E.
  destruct (protect (l_core l) (r_cipher (l_core l)) pt 0) as [[rec c']|e| |] eqn:Ep; try discriminate. injection E as <-.
  pose proof (protect_inv _ _ _ _ _ _ Ep) as (_ & _ & _ & _ & Hi & _). apply incr_inv in Hi. destruct Hi as [Hseq Hc'].
  fold (cur (l_core l)) in Hseq, Hc'. cbn [l_core].
  assert (Cu : cur (set_cs (l_core l) (r_cipher (l_core l)) c') = c') by (apply cur_set; auto).
  split.
  - unfold writable. rewrite Cu, Hc'. cbn [c_seq c_aead c_iv]. split; [exact W1|]. split; [apply cur_ok_set; auto|]. split; [lia|]. exact W4.
  - intros j. unfold protected_len. rewrite Cu, Hc'. reflexivity.
Qed.

Lemma writeMessage_ok fuel : forall x m start written n, hl_datagram (x_out x) = false -> hm_datagram m = false -> x_sent x = [] ->
  (4 < hl_max (x_out x))%nat -> protected_len (l_core (hl_conn (x_out x))) (hl_max (x_out x)) <= 2 ^ 14 ->
  writable (N.of_nat (S (List.length (hm_body m) - start)) + n) (l_core (hl_conn (x_out x))) ->
  (List.length (hm_body m) - start < fuel)%nat ->
  exists x' k, writeMessage_loop fuel x m start written = (x', Ok k) /\ hl_datagram (x_out x') = false /\ x_sent x' = [] /\
    hl_max (x_out x') = hl_max (x_out x) /\ protected_len (l_core (hl_conn (x_out x'))) (hl_max (x_out x)) <= 2 ^ 14 /\ writable n (l_core (hl_conn (x_out x'))).
Proof.
  induction fuel as [|fuel IH]; intros x m start written n Hd Hm Hs Hmax Hp Hw Hfu; [lia|]. cbn [writeMessage_loop].
  assert (E : exists x1 nx, writeFragment x m start (hl_max (x_out x)) = (x1, Ok (true, nx)) /\ hl_datagram (x_out x1) = false /\ x_sent x1 = [] /\
     hl_max (x_out x1) = hl_max (x_out x) /\ protected_len (l_core (hl_conn (x_out x1))) (hl_max (x_out x)) <= 2 ^ 14 /\
     writable (N.of_nat (List.length (hm_body m) - start) + n) (l_core (hl_conn (x_out x1))) /\
     (start < nx \/ List.length (hm_body m) <= nx)%nat).
  { unfold writeFragment. rewrite Hd, Hm, Hs.
    set (hdrlen := if (start =? 0)%nat then handshakeHeaderLen false else 0%nat).
    assert (Hh : (hdrlen <= 4)%nat) by (subst hdrlen; destruct (start =? 0)%nat; cbn; lia).
    destruct (Nat.leb_spec (hl_max (x_out x)) hdrlen); [lia|]. rewrite fragmentAcked_nil. cbv zeta.
    set (bodylen := Nat.min _ _). set (buf := if (0 <? hdrlen)%nat then _ else _).
    assert (Lb : (List.length buf <= hl_max (x_out x))%nat).
    { assert (Lb0 : (List.length (firstn bodylen (skipn start (hm_body m))) <= bodylen)%nat) by (rewrite firstn_length; lia).
      assert (bodylen <= hl_max (x_out x) - hdrlen)%nat by (subst bodylen; lia).
      subst buf. subst hdrlen. destruct (start =? 0)%nat; cbn [handshakeHeaderLen Nat.ltb Nat.leb] in *.
      - unfold hm_marshal. cbn [hm_type hm_length hm_datagram hm_body]. rewrite !app_length, be_length. cbn [List.length]. lia.
      - lia. }
    clearbody buf.
    destruct (write_fits (hl_conn (x_out x)) (N.of_nat (List.length (hm_body m) - start) + n) (mkPt rtHandshake 0 0 buf)) as (l' & E & Hw' & Hp').
    { replace (N.of_nat (List.length (hm_body m) - start) + n + 1) with (N.of_nat (S (List.length (hm_body m) - start)) + n) by lia. exact Hw. }
    { cbn [p_fragment]. unfold protected_len in *. destruct (c_aead _); lia. }
    rewrite E. eexists _, _. split; [reflexivity|]. cbn [x_out set_out set_conn hl_datagram hl_max hl_conn x_sent].
    split; [auto|]. split; [auto|]. split; [auto|]. rewrite Hp'. split; [auto|]. split; [auto|]. subst bodylen. lia. }
  destruct E as (x1 & nx & E & H1 & H2 & H3 & H4 & H5 & H6). rewrite E. cbn [sbind].
  destruct (Nat.leb_spec (List.length (hm_body m)) nx) as [Hdone|Hmore].
  - eexists _, _. split; [reflexivity|]. rewrite H3. do 4 (split; [auto|]). 
    destruct H5 as (V1 & V2 & V3 & V4). split; [auto|]. split; [auto|]. split; [lia|auto].
  - destruct (IH x1 m nx (S written) n) as (x' & k & A & B & D & F & G & I); auto; try lia.
    + rewrite H3. auto.
    + destruct H5 as (V1 & V2 & V3 & V4). split; [auto|]. split; [auto|]. split; [lia|auto].
    + exists x', k. rewrite H3 in *. auto 10.
Qed.

Lemma sends_ok ms : forall x, hl_datagram (x_out x) = false -> x_sent x = [] -> (4 < hl_max (x_out x))%nat ->
  protected_len (l_core (hl_conn (x_out x))) (hl_max (x_out x)) <= 2 ^ 14 ->
  writable (size_of ms) (l_core (hl_conn (x_out x))) -> Forall (fun m => len (snd m) < 2 ^ 24) ms ->
  exists x', sends x ms = (x', Ok tt).
Proof.
  induction ms as [|[t b] ms IH]; intros x Hd Hs Hmax Hp Hw Hf; cbn [sends]; [eauto|].
  inversion Hf as [|? ? Hb Hf']; subst. cbn [snd] in Hb.
  unfold messageFromBody, queueMessage. cbn [x_out set_out set_queue hl_datagram]. rewrite Hd. cbn [writeMessages].
  unfold writeMessage at 1. cbn [hm_body]. destruct (N.ltb_spec maxHandshakeMessageLen (len b)) as [Hbig|_].
  { exfalso. unfold maxHandshakeMessageLen in Hbig. apply (N.lt_irrefl (2 ^ 24)). eapply N.lt_trans; eauto. }
  match goal with |- context [writeMessage_loop ?f ?x0 ?m0 0 0] =>
    destruct (writeMessage_ok f x0 m0 0 0 (size_of ms)) as (x' & k & E & A & B & D & F & G); auto end.
  { cbn [x_out set_out set_queue hl_conn hm_body]. destruct Hw as (V1 & V2 & V3 & V4). split; [auto|]. split; [auto|]. split; [|auto].
    cbn [size_of snd] in V3. unfold len in V3. lia. }
  { cbn [hm_body]. lia. }
  rewrite E. cbn [sbind bind]. apply IH; auto; cbn [x_out set_out set_queue hl_max] in *; rewrite ?D; auto.
Qed.

(** A keyed writer at the default fragment size refuses messages that do not fit one record. *)
Lemma big_message_fails x t b k :
  hl_datagram (x_out x) = false -> x_sent x = [] -> hl_max (x_out x) = N.to_nat maxFragmentLen ->
  c_aead (cur (l_core (hl_conn (x_out x)))) = Some k -> writable 1 (l_core (hl_conn (x_out x))) ->
  len b < 2 ^ 24 -> 2 ^ 14 < 5 + len b + N.of_nat (overhead k) ->
  exists x' e, sends x [(t, b)] = (x', Err e).
Proof.
  intros Hd Hs Hmax Hk (W1 & W2 & W3 & W4) Hb Hbig. cbn [sends].
  unfold messageFromBody, queueMessage. cbn [x_out set_out set_queue hl_datagram]. rewrite Hd. cbn [writeMessages].
  unfold writeMessage at 1. cbn [hm_body]. destruct (N.ltb_spec maxHandshakeMessageLen (len b)) as [Hbig'|_].
  { cbn [sbind bind]. eauto. }
  cbn [writeMessage_loop]. unfold writeFragment at 1. cbn [x_out set_out set_queue hl_max hl_datagram hm_datagram x_sent hm_body hm_seq hm_type hm_length hm_cipher hl_conn].
  rewrite Hd, Hs, Hmax. change (N.to_nat maxFragmentLen <=? (if (0 =? 0)%nat then handshakeHeaderLen false else 0))%nat with false. cbv iota.
  rewrite fragmentAcked_nil. cbv iota zeta.
  match goal with |- context [writeRecord _ (mkPt _ _ _ ?bf)] => set (buf := bf) end.
  assert (Hv : version_ok (l_core (hl_conn (x_out x)))) by (intros H; congruence).
  destruct (W4 k Hk) as (K1 & K2 & K3).
  assert (El : 2 ^ 14 < len buf + 1 + 0 + N.of_nat (overhead k)).
  { subst buf. change (0 <? (if (0 =? 0)%nat then handshakeHeaderLen false else 0))%nat with true. cbv iota.
    unfold hm_marshal. cbn [hm_type hm_length hm_datagram hm_body]. unfold len in *. rewrite !app_length, be_length. cbn [List.length skipn].
    rewrite firstn_length. change ((if (0 =? 0)%nat then handshakeHeaderLen false else 0%nat)) with 4%nat.
    assert (Em : N.of_nat (N.to_nat maxFragmentLen) = 16384) by (rewrite N2Nat.id; reflexivity).
    set (M := N.to_nat maxFragmentLen) in *. clearbody M. change (2 ^ 14) with 16384 in *. lia. }
  clearbody buf.
  destruct (write_protected (hl_conn (x_out x)) (mkPt rtHandshake 0 0 buf) (r_cipher (l_core (hl_conn (x_out x)))) k 0 Hk K1) as [_ Hw]; auto.
  { fold (cur (l_core (hl_conn (x_out x)))). lia. }
  destruct (Hw El) as [e E]. unfold writeRecord. rewrite E. cbn [bind sbind]. eauto.
Qed.
