(** Further proofs about the record layer: datagrams, nonces, rejected records, panics, limits. *)
From Verif Require Import Base Frame FrameProofs Record RecordSpec RecordProofs.

(** ** Datagram round trip *)

(** Each record written corresponds to one [protect] at a known record number. *)
Lemma writes_protects ms : forall l l', writes l ms = (l', Ok tt) -> cur_ok (l_core l) ->
  exists recs, l_out l' = l_out l ++ recs /\ List.length recs = List.length ms /\
    forall i, (i < List.length ms)%nat -> exists w c',
      protect w (r_cipher w) (mkPt (m_type (nth i ms (mkMsg x00 [] 0))) 0 0 (m_content (nth i ms (mkMsg x00 [] 0)))) (m_pad (nth i ms (mkMsg x00 [] 0)))
        = Ok (nth i recs [], c') /\
      r_datagram w = r_datagram (l_core l) /\
      cur w = mkCs (c_epoch (cur (l_core l))) (c_seq (cur (l_core l)) + N.of_nat i) (c_iv (cur (l_core l))) (c_aead (cur (l_core l))).
Proof.
  induction ms as [|m ms IH]; intros l l' H C; simpl in H.
  - injection H as <-. exists []. rewrite app_nil_r. split; [auto|]. split; [auto|]. simpl. intros i Hi. lia.
  - unfold writeRecordWithPadding in H.
    destruct (protect (l_core l) (r_cipher (l_core l)) (mkPt (m_type m) 0 0 (m_content m)) (m_pad m)) as [[rec c']|e| |] eqn:Ep; try discriminate.
    cbv iota in H.
    pose proof (protect_inv _ _ _ _ _ _ Ep) as (_ & _ & _ & _ & Hi & _). apply incr_inv in Hi. destruct Hi as [Hseq Hc'].
    match type of H with writes ?x ms = _ => set (l1 := x) in * end.
    assert (Cl : cur (l_core l1) = c') by (apply cur_set; auto).
    destruct (IH l1 l' H) as (recs & E1 & E2 & E3); [apply cur_ok_set; auto|].
    exists (rec :: recs). split; [rewrite E1; cbn [l1 l_out]; now rewrite <- app_assoc|].
    split; [simpl; auto|]. intros [|i] Hi.
    + exists (l_core l), c'. cbn [nth]. split; [exact Ep|]. split; [auto|]. rewrite N.add_0_r. destruct (cur (l_core l)); reflexivity.
    + simpl in Hi. destruct (E3 i) as (w & c1 & F1 & F2 & F3); [lia|]. exists w, c1. cbn [nth]. split; [exact F1|].
      split; [exact F2|]. rewrite F3, Cl, Hc'. fold (cur (l_core l)). cbn [c_epoch c_seq c_iv c_aead]. f_equal. lia.
Qed.

Lemma datagram_spec_reads old ms recs core_w : 
  (forall i, (i < List.length ms)%nat -> exists w c',
      protect w (r_cipher w) (mkPt (m_type (nth i ms (mkMsg x00 [] 0))) 0 0 (m_content (nth i ms (mkMsg x00 [] 0)))) (m_pad (nth i ms (mkMsg x00 [] 0)))
        = Ok (nth i recs [], c') /\
      r_datagram w = true /\
      cur w = mkCs (c_epoch (cur core_w)) (c_seq (cur core_w) + N.of_nat i) (c_iv (cur core_w)) (c_aead (cur core_w))) ->
  forall order r n,
  Forall (fun i => (i < List.length ms)%nat) order ->
  r_datagram r = true -> r_dir r = DirRead -> cur_ok r ->
  c_aead (cur core_w) = c_aead (cur r) -> c_iv (cur core_w) = c_iv (cur r) -> c_epoch (cur core_w) = c_epoch (cur r) ->
  c_epoch (cur r) < 2 ^ 16 -> lookup (c_epoch (cur r)) (r_readCiphers r) <> None ->
  (exists k, c_aead (cur r) = Some k /\ aead_ok k) ->
  Forall (fun m => m_type m <> x00) ms ->
  c_seq (cur r) + len order <= 2 ^ 48 - 1 ->
  (List.length (concat (map (fun i => nth i recs []) order)) <= n)%nat ->
  spec_reads no_rekey old n r (concat (map (fun i => nth i recs []) order)) =
  map (fun i => delivered (nth i ms (mkMsg x00 [] 0)) (c_epoch (cur r))
                  (c_epoch (cur r) * 2 ^ 48 + (c_seq (cur core_w) + N.of_nat i))) order.
Proof.
  intros HP order. induction order as [|i order IH]; intros r n HF Dg Dr Cr K1 K2 K3 Ke Kl (k & Kk & Ka) Hm Hs Hn.
  - simpl. destruct n; cbn [spec_reads]; [reflexivity|]. unfold first_frame.
    destruct (Nat.ltb_spec (List.length (@nil byte)) (headerLen (recordFraming (r_datagram r)))) as [|Hx]; [reflexivity|].
    pose proof (recordHeaderLen_pos (r_datagram r)). simpl in *. lia.
  - inversion HF as [|? ? Hi HF']; subst. destruct (HP i Hi) as (w & c' & Ep & Dw & Cw).
    set (m := nth i ms (mkMsg x00 [] 0)) in *.
    pose proof (protect_inv _ _ _ _ _ _ Ep) as (_ & _ & _ & _ & Hinc & _). apply incr_inv in Hinc. destruct Hinc as [Hsq _].
    fold (cur w) in Hsq. rewrite Cw in Hsq. cbn [c_seq] in Hsq.
    rewrite len_cons in Hs.
    destruct (protect_handle w r (r_cipher w) m (nth i recs []) c' old Ep) as (hdr & ct & Er & Hff & Hhf); auto.
    { unfold matches. fold (cur w). rewrite Dw, Dg, Cw. cbn [c_aead c_iv c_epoch]. repeat split; congruence. }
    { fold (cur w). rewrite Cw. cbn [c_aead]. rewrite K1, Kk. split; auto.
      rewrite Forall_forall in Hm. apply Hm. unfold m. now apply nth_In. }
    { lia. }
    cbn [map concat] in *. rewrite app_length in Hn.
    assert (Hlr : (0 < List.length (nth i recs []))%nat).
    { specialize (Hff []). apply first_frame_shorter in Hff; [|apply recordHeaderLen_pos]. rewrite app_nil_r in Hff. simpl in Hff. lia. }
    destruct n as [|n]; [lia|]. cbn [spec_reads]. rewrite Hff, Hhf.
    match goal with |- _ :: spec_reads _ _ _ (no_rekey ?x _) _ = _ => set (r' := x) in * end.
    change (no_rekey r' _) with r'.
    assert (Cu : cur r' = mkCs (c_epoch (cur r)) (c_seq (cur r) + 1) (c_iv (cur r)) (c_aead (cur r))) by (apply cur_set; auto).
    f_equal.
    + unfold delivered, wire_seq, combineSeq. fold (cur w). rewrite Dw, Cw. cbn [c_aead c_seq c_epoch]. rewrite K1, Kk.
      rewrite lor_disjoint by lia. rewrite K3. do 2 f_equal. lia.
    + rewrite IH; rewrite ?Cu; cbn [c_aead c_iv c_epoch c_seq]; auto; try lia.
      * apply cur_ok_set; auto.
      * eauto.
Qed.

Lemma concat_datagrams recs order : segmentation (datagrams recs order) (concat (map (fun i => nth i recs []) order)).
Proof. exists (map (fun i => nth i recs []) order). split; auto. unfold datagrams. now rewrite map_map. Qed.

Lemma datagram_round_trip w r ms l' order old :
  writes (fresh w []) ms = (l', Ok tt) ->
  r_datagram w = true -> r_datagram r = true -> r_dir r = DirRead -> cur_ok w -> cur_ok r ->
  c_aead (cur w) = c_aead (cur r) -> c_iv (cur w) = c_iv (cur r) -> c_epoch (cur w) = c_epoch (cur r) ->
  c_epoch (cur r) < 2 ^ 16 -> lookup (c_epoch (cur r)) (r_readCiphers r) <> None ->
  (exists k, c_aead (cur r) = Some k /\ aead_ok k) ->
  Forall (fun m => m_type m <> x00) ms ->
  Forall (fun i => (i < List.length ms)%nat) order ->
  c_seq (cur r) + len order <= 2 ^ 48 - 1 ->
  eventually (fun k => reads no_rekey old k (fresh r (datagrams (l_out l') order)))
    (map (fun i => delivered (nth i ms (mkMsg x00 [] 0)) (c_epoch (cur r))
                     (c_epoch (cur r) * 2 ^ 48 + (c_seq (cur w) + N.of_nat i))) order).
Proof.
  intros H Dw Dg Dr Cw Cr K1 K2 K3 Ke Kl Kk Hm Ho Hs.
  destruct (writes_protects ms (fresh w []) l' H Cw) as (recs & E1 & _ & E3). cbn [fresh l_out app l_core] in E1, E3. rewrite E1.
  rewrite <- (datagram_spec_reads old ms recs w) with (n := List.length (concat (map (fun i => nth i recs []) order))); auto.
  - apply reads_fresh; auto; [intros c x; reflexivity|]. apply concat_datagrams.
  - intros i Hi. destruct (E3 i Hi) as (w1 & c1 & F1 & F2 & F3). exists w1, c1. rewrite F2. auto.
Qed.

(** ** Nonces *)

Lemma bxor_inj a b c : bxor a b = bxor a c -> b = c.
Proof.
  intros H. apply (f_equal bN) in H. unfold bxor in H. rewrite !bN_b8 in H.
  assert (L : forall x y, N.lxor (bN x) (bN y) < 256).
  { intros x y. destruct (N.eq_dec (N.lxor (bN x) (bN y)) 0) as [->|Hz]; [lia|].
    change 256 with (2 ^ 8). apply N.log2_lt_pow2; [lia|]. eapply N.le_lt_trans; [apply N.log2_lxor|].
    apply N.max_lub_lt; (destruct (N.eq_dec (bN x) 0) as [E|E]; destruct (N.eq_dec (bN y) 0) as [E'|E']; rewrite ?E, ?E'; try (simpl; lia);
      apply N.log2_lt_pow2; try lia; apply bN_lt). }
  rewrite !N.mod_small in H by apply L. apply bN_inj.
  apply (f_equal (N.lxor (bN a))) in H. now rewrite <- !N.lxor_assoc, N.lxor_nilpotent, !N.lxor_0_l in H.
Qed.
Lemma xor_bytes_inj a b c : List.length b = List.length a -> List.length c = List.length a -> xor_bytes a b = xor_bytes a c -> b = c.
Proof.
  revert b c. induction a as [|x a IH]; intros [|y b] [|z c] Hb Hc H; simpl in *; try discriminate; auto.
  injection H as H1 H2. apply bxor_inj in H1. f_equal; auto.
Qed.
Lemma computeNonce_inj iv s t n : s < 2 ^ 64 -> t < 2 ^ 64 -> computeNonce iv s = Ok n -> computeNonce iv t = Ok n -> s = t.
Proof.
  unfold computeNonce. destruct (Nat.ltb_spec (List.length iv) 8) as [|Hl]; [discriminate|]. intros Hs Ht H1 H2.
  apply Ok_inj in H1, H2. rewrite <- H2 in H1. apply app_inv_head in H1.
  apply xor_bytes_inj in H1; try (rewrite be_length, skipn_length; lia).
  apply be_inj in H1; auto.
Qed.

(** Invariant of a history: entries already emitted under cipher [i] used numbers below its counter. *)
Definition used (nonce_of : bytes -> bytes) (datagram : bool) (heap : list cstate) (log : list (nat * bytes)) : Prop :=
  forall i body, In (i, body) log -> (i < List.length heap)%nat /\
    exists s, s < c_seq (nth i heap nullCs) /\
      let c := nth i heap nullCs in
      computeNonce (c_iv c) (combineSeq (mkCs (c_epoch c) s (c_iv c) (c_aead c)) datagram) = Ok (nonce_of body).

Definition heap_ok (nonce_of : bytes -> bytes) (heap : list cstate) : Prop :=
  Forall (fun c => c_epoch c < 2 ^ 16 /\ forall k, c_aead c = Some k -> reveals nonce_of k /\ c_seq c < 2 ^ 48) heap.

Lemma Forall_nth' {A} (P : A -> Prop) l d i : Forall P l -> (i < List.length l)%nat -> P (nth i l d).
Proof. intros H Hi. rewrite Forall_forall in H. apply H. now apply nth_In. Qed.
Lemma Forall_set_nth {A} (P : A -> Prop) i x l : Forall P l -> P x -> Forall P (set_nth i x l).
Proof. intros H Hx. revert i. induction H; intros [|i]; simpl; auto. Qed.

Lemma recordHeader_len dg v t s n h : recordHeader dg v t s n = Ok h -> List.length h = recordHeaderLen dg.
Proof.
  unfold recordHeader. destruct dg; intros H; [inv_bind H as w Hw|]; inv_ok H; rewrite !app_length, !be_length; reflexivity.
Qed.

Lemma combineSeq_lt dg c : c_epoch c < 2 ^ 16 -> c_seq c < 2 ^ 48 -> combineSeq c dg < 2 ^ 64.
Proof.
  intros H1 H2. destruct dg; [apply combineSeq_spec; auto|]. simpl.
  eapply N.lt_trans; [exact H2|reflexivity].
Qed.
Lemma combineSeq_inj dg e iv k s t : s < 2 ^ 48 -> t < 2 ^ 48 ->
  combineSeq (mkCs e s iv k) dg = combineSeq (mkCs e t iv k) dg -> s = t.
Proof.
  intros Hs Ht. unfold combineSeq; cbn [c_seq c_epoch]. destruct dg; auto. rewrite !lor_disjoint by auto.
  apply N.add_cancel_r.
Qed.

Definition keyed (nonce_of : bytes -> bytes) (p : nat * bytes) : nat * bytes := (fst p, nonce_of (snd p)).

Lemma nonces_unique nonce_of ops : forall l log,
  Forall (op_reveals nonce_of) ops ->
  heap_ok nonce_of (r_heap (l_core l)) ->
  used nonce_of (r_datagram (l_core l)) (r_heap (l_core l)) log ->
  NoDup (map (keyed nonce_of) log) ->
  NoDup (map (keyed nonce_of) (log ++ emitted l ops)).
Proof.
  induction ops as [|o ops IH]; intros l log HO HH HU HN; simpl.
  - now rewrite app_nil_r.
  - inversion HO as [|? ? Ho HO']; subst. destruct o as [i m|e k iv|s|v].
    + destruct (Nat.ltb_spec i (List.length (r_heap (l_core l)))) as [Hi|Hi]; cbn [negb]; [|now apply IH].
      unfold writeRecordWithPadding.
      destruct (protect (l_core l) i (mkPt (m_type m) 0 0 (m_content m)) (m_pad m)) as [[rec c']|er| |] eqn:Ep; try (now apply IH); try (now rewrite app_nil_r).
      cbv iota.
      apply protect_inv in Ep. destruct Ep as (hdr & ct & -> & _ & Hinc & Hcase).
      pose proof (Forall_nth' _ _ nullCs i HH Hi) as [Hep Hk]. cbv beta in Hk.
      unfold get_cs in *. set (c := nth i (r_heap (l_core l)) nullCs) in *.
      apply incr_inv in Hinc. destruct Hinc as [Hsq ->].
      set (c' := mkCs (c_epoch c) (c_seq c + 1) (c_iv c) (c_aead c)).
      assert (HH' : heap_ok nonce_of (set_nth i c' (r_heap (l_core l)))).
      { apply Forall_set_nth; auto. split; [exact Hep|]. intros k Ek. simpl in Ek. split; [now apply Hk|]. simpl. lia. }
      assert (HU' : used nonce_of (r_datagram (l_core l)) (set_nth i c' (r_heap (l_core l))) log).
      { intros j body Hin. destruct (HU j body Hin) as (Hj & s & Hs & Hn). rewrite set_nth_length. split; auto.
        destruct (Nat.eq_dec i j) as [<-|Hij].
        - rewrite set_nth_same by auto. exists s. fold c in Hs, Hn. cbn [c_seq c_iv c_epoch c_aead c']. split; [lia|exact Hn].
        - rewrite set_nth_other by auto. eauto. }
      destruct (c_aead c) as [k|] eqn:Ek.
      * destruct Hcase as (_ & nonce & Hnc & Hh & ->).
        cbn [l_out]. rewrite last_last. rewrite skipn_app_n by (symmetry; eapply recordHeader_len; eauto).
        set (body := seal k nonce hdr (p_fragment (mkPt (m_type m) 0 0 (m_content m)) ++ [p_type (mkPt (m_type m) 0 0 (m_content m))] ++ repeat x00 (m_pad m))).
        destruct (Hk k eq_refl) as [Hrev Hlt].
        assert (En : nonce_of body = nonce) by apply Hrev.
        rewrite app_assoc. apply IH; cbn [l_core set_cs r_heap r_datagram]; auto.
        -- intros j b Hin. apply in_app_or in Hin. destruct Hin as [Hin|[Hin|[]]]; [now apply HU'|].
           injection Hin as <- <-. rewrite set_nth_length. split; auto. rewrite set_nth_same by auto.
           exists (c_seq c). cbn [c_seq c_iv c_epoch c_aead c']. split; [lia|]. rewrite En, <- Hnc. reflexivity.
        -- rewrite map_app. simpl. apply NoDup_Add with (a := keyed nonce_of (i, body)) (l := map (keyed nonce_of) log).
           { replace (map (keyed nonce_of) log) with (map (keyed nonce_of) log ++ []) at 1 by apply app_nil_r. apply Add_app. }
           split; auto. intros Hin. apply in_map_iff in Hin. destruct Hin as ([j b] & E & Hin).
           unfold keyed in E. simpl in E. injection E as -> Eb.
           destruct (HU i b Hin) as (_ & s & Hs & Hn). fold c in Hs, Hn. cbv zeta in Hn.
           rewrite Eb, En in Hn.
           assert (s = c_seq c); [|lia].
           eapply (combineSeq_inj (r_datagram (l_core l)) (c_epoch c) (c_iv c) (c_aead c)); [lia|lia|].
           eapply computeNonce_inj; [| |exact Hn|].
           { apply combineSeq_lt; auto. simpl. lia. }
           { apply combineSeq_lt; auto. }
           { rewrite <- Hnc. reflexivity. }
      * cbn [app]. apply IH; auto.
    + destruct Ho as [Hr He]. apply IH; auto; cbn [l_core rekey r_heap r_datagram].
      * apply Forall_app. split; auto. constructor; auto. split; auto. intros k' [= <-]. split; auto. simpl. reflexivity.
      * intros j body Hin. destruct (HU j body Hin) as (Hj & s & Hs & Hn). rewrite app_length. split; [lia|].
        rewrite app_nth1 by auto. eauto.
    + apply IH; auto; cbn [l_core resetClear r_heap r_datagram].
      * apply Forall_app. split; auto. constructor; auto. split; [reflexivity|]. discriminate.
      * intros j body Hin. destruct (HU j body Hin) as (Hj & s' & Hs & Hn). rewrite app_length. split; [lia|].
        rewrite app_nth1 by auto. eauto.
    + apply IH; auto.
Qed.

Lemma nonces_unique_new nonce_of datagram ops :
  Forall (op_reveals nonce_of) ops ->
  NoDup (map (keyed nonce_of) (emitted (newRecordLayer datagram DirWrite []) ops)).
Proof.
  intros HO. change (emitted ?l ops) with ([] ++ emitted l ops). apply nonces_unique; auto.
  - repeat constructor. discriminate.
  - intros i b [].
  - constructor.
Qed.

(** ** Rejected records leave no trace *)

Lemma complete_first_frame dg hdr body rest : complete_record dg hdr body ->
  first_frame (recordFraming dg) ((hdr ++ body) ++ rest) = Some (Ok (hdr, body), rest).
Proof.
  intros [L1 L2]. unfold first_frame. cbn [headerLen recordFraming]. rewrite <- app_assoc, app_length, L1.
  destruct (Nat.ltb_spec (recordHeaderLen dg + List.length (body ++ rest)) (recordHeaderLen dg)); [lia|].
  rewrite firstn_app_n, skipn_app_n by auto. cbn [frameLen recordFraming]. rewrite L1 in L2. cbv iota. rewrite L2.
  unfold len. rewrite Nnat.Nat2N.id, app_length.
  destruct (Nat.ltb_spec (List.length body + List.length rest) (List.length body)); [lia|].
  rewrite firstn_app_n, skipn_app_n by auto. reflexivity.
Qed.

Lemma unauthentic_rejected r old hdr body : complete_record (r_datagram r) hdr body -> r_dir r = DirRead ->
  unauthentic r hdr body ->
  exists e, handleFrame r old hdr body = (r, Err e) /\ is_wb e = false.
Proof.
  intros [L1 L2] Dr (k & nonce & Hk & Hn & Ho & He).
  destruct hdr as [|t hdr]; [destruct (r_datagram r); discriminate|].
  unfold handleFrame. set (h := t :: hdr) in *.
  destruct (negb _); [eauto|]. destruct (_ <? _); [eauto|].
  fold (cur r). unfold number_for in *. rewrite L2. unfold len. rewrite Nnat.Nat2N.id, firstn_all, Nat.sub_diag. cbn [repeat]. rewrite app_nil_r.
  assert (D : forall s, computeNonce (c_iv (cur r)) s = Ok nonce -> exists e, decrypt r s h body = Err e /\ is_wb e = false).
  { intros s Hs. unfold decrypt. rewrite Dr. fold (cur r). destruct (_ <? _)%nat; [eauto|]. rewrite Hk, Hs. cbn [bind]. rewrite Ho. eauto. }
  destruct (r_datagram r).
  - set (s := unbe (firstn 8 (skipn 3 h))) in *. destruct (He eq_refl) as [He1 He2]. rewrite He1. destruct (lookup (c_epoch (cur r)) (r_readCiphers r)) as [ci|]; cbn [bind]; [|congruence].
    rewrite N.eqb_refl. cbn [bind]. fold (cur r). rewrite Hk. destruct (D s Hn) as (e & -> & Hw). cbn [bind]. eauto.
  - cbn [bind]. fold (cur r). rewrite Hk. destruct (D _ Hn) as (e & -> & Hw). cbn [bind]. eauto.
Qed.

Lemma spec_reads_fuel after old n m core data : keeps_transport after ->
  (List.length data <= n)%nat -> (List.length data <= m)%nat ->
  spec_reads after old n core data = spec_reads after old m core data.
Proof.
  intros KT. revert m core data. induction n as [|n IH]; intros m core data Hn Hm.
  - destruct data; [|simpl in Hn; lia]. destruct m; cbn [spec_reads]; auto.
    unfold first_frame. destruct (Nat.ltb_spec (List.length (@nil byte)) (headerLen (recordFraming (r_datagram core)))) as [|Hx]; auto.
    pose proof (recordHeaderLen_pos (r_datagram core)). simpl in *. lia.
  - destruct m as [|m].
    + destruct data; [|simpl in Hm; lia]. cbn [spec_reads]; auto.
      unfold first_frame. destruct (Nat.ltb_spec (List.length (@nil byte)) (headerLen (recordFraming (r_datagram core)))) as [|Hx]; auto.
      pose proof (recordHeaderLen_pos (r_datagram core)). simpl in *. lia.
    + cbn [spec_reads]. destruct (first_frame (recordFraming (r_datagram core)) data) as [[r rest]|] eqn:Ef; auto.
      apply first_frame_shorter in Ef; [|apply recordHeaderLen_pos].
      destruct r as [[h b]|e| |]; auto. destruct (handleFrame core old h b) as [core' x].
      destruct x; auto; [f_equal; apply IH; lia|]. destruct (is_wb _); [apply IH; lia | f_equal; apply IH; lia].
Qed.

Lemma spec_reads_forged after old r fs rest :
  keeps_transport after -> (forall c e, after c (Err e) = c) -> r_dir r = DirRead -> Forall (forged r) fs ->
  forall n, (List.length (concat (map wire fs) ++ rest) <= n)%nat ->
  exists errors, List.length errors = List.length fs /\ Forall is_err errors /\
    spec_reads after old n r (concat (map wire fs) ++ rest) = errors ++ spec_reads after old n r rest.
Proof.
  intros KT KE Dr HF. induction HF as [|[hdr body] fs [Hc Hu] HF IH]; intros n Hn.
  - exists []. repeat split; auto.
  - cbn [map concat fst snd] in *. unfold wire at 1 in Hn. unfold wire at 1. cbn [fst snd] in *.
    destruct (unauthentic_rejected r old hdr body Hc Dr Hu) as (e & He & Hw).
    rewrite !app_length in Hn.
    assert (Hh : (0 < List.length hdr)%nat) by (destruct Hc as [-> _]; apply recordHeaderLen_pos).
    destruct n as [|n]; [lia|]. destruct (IH n) as (er & E1 & E2 & E3); [rewrite app_length; lia|].
    exists (Err e :: er). split; [simpl; auto|]. split; [constructor; auto; eexists; reflexivity|].
    cbn [spec_reads]. rewrite <- app_assoc, complete_first_frame by auto. rewrite He, Hw, KE. cbn [app]. f_equal.
    rewrite E3. f_equal. apply (spec_reads_fuel after old n (S n)); auto; lia.
Qed.

Lemma forged_inert after old r fs rest c1 c2 :
  keeps_transport after -> (forall c e, after c (Err e) = c) -> r_dir r = DirRead -> Forall (forged r) fs ->
  segmentation c1 (concat (map wire fs) ++ rest) -> segmentation c2 rest ->
  exists errors, List.length errors = List.length fs /\ Forall is_err errors /\
    eventually_same (fun k => reads after old k (fresh r c1)) (fun k => errors ++ reads after old k (fresh r c2)).
Proof.
  intros KT KE Dr HF S1 S2. set (n := List.length (concat (map wire fs) ++ rest)).
  destruct (spec_reads_forged after old r fs rest KT KE Dr HF n) as (er & E1 & E2 & E3); [auto|].
  exists er. split; [auto|]. split; [auto|].
  destruct (reads_fresh after old r c1 _ KT S1 n) as [K1 H1]; [unfold n; lia|].
  destruct (reads_fresh after old r c2 _ KT S2 n) as [K2 H2]; [unfold n; rewrite !app_length; lia|].
  exists (K1 + K2)%nat. intros k Hk. rewrite H1, H2 by lia. exact E3.
Qed.

(** ** Reading never panics *)

Lemma strip_rev_some l : Exists (fun b => b <> x00) l -> strip_padding_rev l <> None.
Proof.
  induction l as [|b l IH]; intros H; [inversion H|]. simpl. destruct (Byte.eqb b x00) eqn:E; [|discriminate].
  apply IH. inversion H; subst; auto. apply byte_eqb_eq in E. congruence.
Qed.
Lemma typed_strip k n a c p : typed k -> open k n a c = Some p -> strip_padding p <> None.
Proof.
  intros T H. apply T in H. apply strip_rev_some. apply Exists_exists in H. destruct H as (b & Hb & Hz).
  apply Exists_exists. exists b. split; auto. now apply in_rev in Hb.
Qed.

Lemma get_ok n r i : readable n r -> (i < List.length (r_heap r))%nat ->
  c_seq (get_cs r i) + n <= 2 ^ 48 - 1 /\ forall k, c_aead (get_cs r i) = Some k -> typed k /\ (8 <= List.length (c_iv (get_cs r i)))%nat.
Proof. intros (_ & HF & _) Hi. exact (Forall_nth' _ _ nullCs i HF Hi). Qed.

Lemma decrypt_no_panic n r s h f : readable n r -> c_aead (cur r) <> None -> decrypt r s h f <> Panic /\ decrypt r s h f <> Fuel.
Proof.
  intros R Hk. pose proof R as (Dr & _ & Hc & _). pose proof (get_ok n r _ R Hc) as [_ Hkk]. fold (cur r) in Hkk.
  unfold decrypt. rewrite Dr. fold (cur r). destruct (_ <? _)%nat; [split; discriminate|].
  destruct (c_aead (cur r)) as [k|]; [|congruence]. destruct (Hkk k eq_refl) as [T Hiv].
  unfold computeNonce. destruct (Nat.ltb_spec (List.length (c_iv (cur r))) 8); [lia|]. cbn [bind].
  destruct (open k _ h f) as [p|] eqn:Eo; [|split; discriminate].
  apply (typed_strip _ _ _ _ _ T) in Eo. destruct (strip_padding p) as [[ty fr]|]; [split; discriminate|congruence].
Qed.

Lemma handleFrame_no_panic n r old h b r' x : readable (n + 1) r -> h <> [] -> handleFrame r old h b = (r', x) ->
  x <> Panic /\ x <> Fuel /\ readable n r'.
Proof.
  intros R Hh H.
  assert (Rn : readable n r).
  { destruct R as (R1 & R2 & R3 & R4). split; [|split]; auto. eapply Forall_impl; [|exact R2]. intros c [H1 H2]. split; [lia|auto]. }
  unfold handleFrame in H. destruct h as [|t h]; [congruence|]. set (hd := t :: h) in *.
  destruct (negb _); [injection H as <- <-; split; [discriminate|split; [discriminate|exact Rn]]|].
  destruct (_ <? _); [injection H as <- <-; split; [discriminate|split; [discriminate|exact Rn]]|].
  fold (cur r) in H.
  match type of H with match bind ?s _ with _ => _ end = _ => set (sel := s) in * end.
  assert (Hsel : match sel with
                 | Ok (s, i) => (i < List.length (r_heap r))%nat /\ (c_aead (get_cs r i) <> None -> c_aead (cur r) <> None)
                 | Err _ => True | _ => False end).
  { unfold sel. pose proof R as (_ & _ & Hc & Hl). destruct (r_datagram r).
    - destruct (lookup _ (r_readCiphers r)) as [ci|] eqn:El; auto. destruct (_ =? _); [split; auto|].
      destruct old; auto. eapply Hl; eauto.
    - split; auto. }
  destruct sel as [[s i]|e| |]; cbn [bind] in H; try contradiction.
  2:{ injection H as <- <-. split; [discriminate|split; [discriminate|exact Rn]]. }
  destruct Hsel as [Hi Hk]. pose proof (get_ok _ _ _ R Hi) as [Hsq Hkk].
  match type of H with match bind ?d _ with _ => _ end = _ => set (dec := d) in * end.
  assert (Hd : dec <> Panic /\ dec <> Fuel).
  { unfold dec. destruct (c_aead (get_cs r i)) as [k|]; [|split; discriminate]. eapply decrypt_no_panic; eauto. apply Hk. discriminate. }
  destruct dec as [pt|e| |]; cbn [bind] in H; try (destruct Hd; congruence).
  2:{ injection H as <- <-. split; [discriminate|split; [discriminate|exact Rn]]. }
  destruct (_ <? _); [injection H as <- <-; split; [discriminate|split; [discriminate|exact Rn]]|].
  rewrite incr_ok in H by lia. cbn [bind] in H. injection H as <- <-. split; [discriminate|]. split; [discriminate|].
  destruct Rn as (R1 & R2 & R3 & R4). split; [exact R1|]. split; [|split].
  - cbn [set_cs r_heap]. apply Forall_set_nth; auto. cbn [c_seq c_aead c_iv]. split; [lia|exact Hkk].
  - now apply cur_ok_set.
  - cbn [set_cs r_readCiphers]. intros e j Hj. destruct (R4 e j Hj) as [J1 J2]. unfold set_cs, get_cs, cur in *. cbn [r_heap r_cipher] in *. rewrite set_nth_length.
    split; auto. unfold get_cs in *; cbn [r_heap].
    assert (Eq : forall q, (q < List.length (r_heap r))%nat -> c_aead (nth q (set_nth i (mkCs (c_epoch (nth i (r_heap r) nullCs)) (c_seq (nth i (r_heap r) nullCs) + 1) (c_iv (nth i (r_heap r) nullCs)) (c_aead (nth i (r_heap r) nullCs))) (r_heap r)) nullCs)
       = c_aead (nth q (r_heap r) nullCs)).
    { intros q Hq. destruct (Nat.eq_dec i q) as [<-|]; [now rewrite set_nth_same|now rewrite set_nth_other]. }
    rewrite !Eq; auto.
Qed.

Lemma process_total d f : lawful_framing d -> fr_ok d f -> exists f' r, process d f = (f', r) /\ fr_ok d f' /\ r <> Panic /\ r <> Fuel /\
  (forall h b, r = Ok (h, b) -> List.length h = headerLen d) /\ (r = Err WouldBlock -> (0 < needed f')%nat).
Proof.
  intros L F. pose proof (process_spec d f L F) as P. destruct (first_frame d (pending f)) as [[r rest]|] eqn:Ef.
  - destruct P as (f' & E & F' & _). exists f', r. split; auto. split; auto.
    unfold first_frame in Ef. destruct (Nat.ltb_spec (List.length (pending f)) (headerLen d)) as [|Hl]; [discriminate|].
    assert (Lh : List.length (firstn (headerLen d) (pending f)) = headerLen d) by (rewrite firstn_length; lia).
    destruct (L _ Lh) as (r0 & E0 & R1 & R2 & R3). rewrite E0 in Ef. destruct r0 as [n|e| |]; try congruence.
    + destruct (_ <? _)%nat; [discriminate|]. injection Ef as <- _. repeat split; try discriminate. now intros h b [= <- <-].
    + injection Ef as <- _. repeat split; try discriminate. congruence.
  - destruct P as (f' & E & F' & _ & Hn). exists f', (Err WouldBlock). repeat split; auto; try discriminate; apply F'.
Qed.

Lemma nextFrame_total d conn f : lawful_framing d -> fr_ok d f ->
  exists conn' f' r, nextFrame d conn f = (conn', f', r) /\ fr_ok d f' /\ r <> Panic /\ r <> Fuel /\
    (forall h b, r = Ok (h, b) -> List.length h = headerLen d).
Proof.
  intros L. unfold nextFrame.
  assert (G : forall n conn f, fr_ok d f -> (List.length conn + (if (needed f =? 0)%nat then 1 else 0) < n)%nat ->
    exists conn' f' r, nextFrame_loop n d conn f = (conn', f', r) /\ fr_ok d f' /\ r <> Panic /\ r <> Fuel /\
    (forall h b, r = Ok (h, b) -> List.length h = headerLen d)).
  2:{ intros F. apply G; auto. destruct (_ =? _)%nat; lia. }
  induction n as [|n IH]; intros cn fr F Hn; [lia|]. cbn [nextFrame_loop].
  assert (S : forall cn fr, fr_ok d fr -> (List.length cn < n)%nat ->
    exists conn' f' r,  (match process d fr with
        | (f, Err e) => if is_wb e then nextFrame_loop n d cn f else (cn, f, Err e)
        | (f, r) => (cn, f, r)
        end) = (conn', f', r) /\ fr_ok d f' /\ r <> Panic /\ r <> Fuel /\
    (forall h b, r = Ok (h, b) -> List.length h = headerLen d)).
  { clear cn fr F Hn. intros cn fr F Hn. destruct (process_total d fr L F) as (f' & r & E & F' & P1 & P2 & P3 & P4). rewrite E.
    destruct r as [[h b]|e| |]; try congruence.
    - exists cn, f', (Ok (h, b)). split; [reflexivity|]. split; [exact F'|]. repeat split; auto.
    - destruct (is_wb e) eqn:Ew.
      + apply is_wb_spec in Ew. subst e. apply IH; auto. specialize (P4 eq_refl). destruct (Nat.eqb_spec (needed f') 0); lia.
      + exists cn, f', (Err e). split; [reflexivity|]. split; [exact F'|]. repeat split; auto; discriminate. }
  destruct (Nat.ltb_spec 0 (needed fr)) as [Hne|Hz].
  - destruct (Nat.eqb_spec (needed fr) 0) as [|_]; [lia|].
    destruct cn as [|[b|e] cn].
    + exists [], fr, (Err WouldBlock). split; [reflexivity|]. split; [exact F|]. repeat split; discriminate.
    + destruct b as [|b0 b].
      * exists cn, fr, (Err WouldBlock). split; [reflexivity|]. split; [exact F|]. repeat split; discriminate.
      * apply S; [now apply fr_ok_add | simpl in Hn; lia].
    + exists cn, fr, (Err e). split; [reflexivity|]. split; [exact F|]. repeat split; discriminate.
  - destruct (Nat.eqb_spec (needed fr) 0) as [_|]; [|lia]. apply S; auto. lia.
Qed.

Lemma reads_no_panic after old : keeps_transport after ->
  (forall n c r, readable n c -> readable n (after c r)) ->
  forall k l, l_cached l = None -> fr_ok (recordFraming (r_datagram (l_core l))) (l_frame l) ->
  readable (N.of_nat k) (l_core l) ->
  ~ In Panic (reads after old k l) /\ ~ In Fuel (reads after old k l).
Proof.
  intros KT KR. induction k as [|k IH]; intros l Hc F R; [simpl; tauto|].
  cbn [reads]. unfold readRecordE, nextRecord. rewrite Hc.
  destruct (nextFrame_total _ (l_in l) (l_frame l) (recordFraming_lawful (r_datagram (l_core l))) F) as (c' & f' & r & E & F' & P1 & P2 & P3).
  rewrite E. destruct r as [[h b]|e| |]; try congruence; cbn [l_core l_frame l_in l_out l_cached].
  - specialize (P3 _ _ eq_refl). assert (Hh : h <> []) by (intros ->; destruct (r_datagram (l_core l)); discriminate).
    destruct (handleFrame (l_core l) old h b) as [core x] eqn:Eh.
    replace (N.of_nat (S k)) with (N.of_nat k + 1) in R by lia.
    destruct (handleFrame_no_panic _ _ _ _ _ _ _ R Hh Eh) as (X1 & X2 & R').
    pose proof (handleFrame_datagram _ _ _ _ _ _ Eh) as Ed.
    destruct x as [pt|e| |]; try congruence; cbn [l_core l_frame l_in l_out l_cached].
    + edestruct (IH (mkRl (after core (Ok pt)) f' None c' (l_out l))) as [I1 I2]; cbn [l_core l_frame l_in l_out l_cached]; auto; [now rewrite KT, Ed|].
      split; intros [HH|HH]; try discriminate; auto.
    + destruct (is_wb e).
      * edestruct (IH (mkRl core f' None c' (l_out l))) as [I1 I2]; cbn [l_core l_frame l_in l_out l_cached]; auto. now rewrite Ed.
      * edestruct (IH (mkRl (after core (Err e)) f' None c' (l_out l))) as [I1 I2]; cbn [l_core l_frame l_in l_out l_cached]; auto; [now rewrite KT, Ed|].
        split; intros [HH|HH]; try discriminate; auto.
  - assert (R' : readable (N.of_nat k) (l_core l)).
    { destruct R as (R1 & R2 & R3 & R4). split; [|split]; auto. eapply Forall_impl; [|exact R2]. intros c [H1 H2]. split; [lia|auto]. }
    destruct (is_wb e).
    + edestruct (IH (mkRl (l_core l) f' None c' (l_out l))) as [I1 I2]; cbn [l_core l_frame l_in l_out l_cached]; auto.
    + edestruct (IH (mkRl (after (l_core l) (Err e)) f' None c' (l_out l))) as [I1 I2]; cbn [l_core l_frame l_in l_out l_cached]; auto; [now rewrite KT|].
      split; intros [HH|HH]; try discriminate; auto.
Qed.

Lemma fresh_no_panic after old k core conn : keeps_transport after ->
  (forall n c r, readable n c -> readable n (after c r)) -> readable (N.of_nat k) core ->
  ~ In Panic (reads after old k (fresh core conn)) /\ ~ In Fuel (reads after old k (fresh core conn)).
Proof. intros. apply reads_no_panic; auto. cbn [fresh l_frame]. apply fr_ok_new, recordHeaderLen_pos. Qed.

(** ** Size limits when writing *)

Definition version_ok (r : rcore) : Prop :=
  r_datagram r = true -> r_version r = tls12Version \/ r_version r = tls10Version.

Lemma recordHeader_ok dg v t s n : (dg = true -> v = tls12Version \/ v = tls10Version) -> exists h, recordHeader dg v t s n = Ok h.
Proof.
  intros H. unfold recordHeader. destruct dg; [|eauto]. destruct (H eq_refl) as [->| ->]; cbn; eauto.
Qed.

Lemma write_clear l pt i : c_aead (get_cs (l_core l) i) = None -> c_seq (get_cs (l_core l) i) < 2 ^ 48 - 1 ->
  version_ok (l_core l) -> len (p_fragment pt) <= 2 ^ 14 ->
  exists l', writeRecordWithPadding l pt i 0 = (l', Ok tt).
Proof.
  intros Hk Hs Hv Hl. unfold writeRecordWithPadding, protect. rewrite Hk.
  destruct (recordHeader_ok (r_datagram (l_core l)) (r_version (l_core l)) (p_type pt) (combineSeq (get_cs (l_core l) i) (r_datagram (l_core l))) (List.length (p_fragment pt)) Hv) as [h ->].
  cbn [bind Nat.ltb Nat.leb]. destruct (N.ltb_spec maxFragmentLen (len (p_fragment pt))) as [Hb|_]; [unfold maxFragmentLen in Hb; change (2 ^ 14) with 16384 in Hl; lia|].
  rewrite incr_ok by auto. cbn [bind]. eauto.
Qed.

Lemma write_protected l pt i k pad : c_aead (get_cs (l_core l) i) = Some k -> aead_ok k -> c_seq (get_cs (l_core l) i) < 2 ^ 48 - 1 ->
  (8 <= List.length (c_iv (get_cs (l_core l) i)))%nat -> r_dir (l_core l) = DirWrite -> version_ok (l_core l) ->
  let total := len (p_fragment pt) + 1 + N.of_nat pad + N.of_nat (overhead k) in
  (total <= 2 ^ 14 -> exists l', writeRecordWithPadding l pt i pad = (l', Ok tt)) /\
  (2 ^ 14 < total -> exists e, writeRecordWithPadding l pt i pad = (l, Err e)).
Proof.
  intros Hk [_ Kl] Hs Hiv Hd Hv total. unfold writeRecordWithPadding, protect. rewrite Hk.
  match goal with |- context [recordHeader ?a ?b ?c ?d ?e] => destruct (recordHeader_ok a b c d e Hv) as [h ->] end.
  cbn [bind]. unfold encrypt. rewrite Hd. unfold computeNonce. destruct (Nat.ltb_spec (List.length (c_iv (get_cs (l_core l) i))) 8); [lia|].
  cbn [bind].
  match goal with |- context [len ?ct] => assert (El : len ct = total) by
    (unfold total, len; rewrite Kl, !app_length, repeat_length; simpl; lia) end.
  rewrite El. change (2 ^ 14) with maxFragmentLen.
  destruct (N.ltb_spec maxFragmentLen total) as [Hb|Hb].
  - cbn [bind]. split; [intros; lia|]. intros _. eauto.
  - split; [|intros; lia]. intros _. rewrite incr_ok by auto. cbn [bind]. eauto.
Qed.

(** ** Old clear epoch *)

Lemma old_clear_read r i ty v seq body :
  r_datagram r = true -> lookup 0 (r_readCiphers r) = Some i -> c_aead (get_cs r i) = None ->
  c_epoch (get_cs r i) = 0 -> c_epoch (cur r) <> 0 -> c_seq (get_cs r i) < 2 ^ 48 - 1 ->
  In ty [rtAlert; rtHandshake; rtApplicationData; rtAck] -> List.length v = 2%nat -> seq < 2 ^ 48 -> len body <= 2 ^ 14 ->
  eventually (fun k => reads no_rekey true k (fresh r [RBytes ([ty] ++ v ++ be 8 seq ++ be 2 (len body) ++ body)]))
    [Ok (mkPt ty 0 0 body)].
Proof.
  intros Dg Hl Hk He Hc Hs Ht Hv Hq Hb.
  set (hdr := [ty] ++ v ++ be 8 seq ++ be 2 (len body)).
  assert (Eh : [ty] ++ v ++ be 8 seq ++ be 2 (len body) ++ body = (hdr ++ body) ++ []).
  { unfold hdr. rewrite app_nil_r, <- !app_assoc. reflexivity. }
  assert (Lh : List.length hdr = 13%nat) by (unfold hdr; rewrite !app_length, !be_length, Hv; reflexivity).
  assert (Sz : unbe (skipn (List.length hdr - 2) hdr) = len body).
  { unfold hdr. rewrite !app_assoc. rewrite skipn_app_n by (rewrite !app_length, !be_length, Hv; reflexivity).
    apply unbe_be_small. change (2 ^ 14) with 16384 in Hb. change (256 ^ N.of_nat 2) with 65536. lia. }
  assert (Sq : unbe (firstn 8 (skipn 3 hdr)) = seq).
  { unfold hdr. rewrite (app_assoc [ty] v). rewrite skipn_app_n by (rewrite app_length, Hv; reflexivity).
    rewrite firstn_app_n by now rewrite be_length. apply unbe_be_small. change (256 ^ N.of_nat 8) with (2 ^ 64). lia. }
  assert (Cr : complete_record (r_datagram r) hdr body) by (rewrite Dg; split; auto).
  assert (Ht0 : exists h0, hdr = ty :: h0) by (eexists; reflexivity).
  clearbody hdr. rewrite Eh. clear Eh.
  destruct (reads_fresh no_rekey true r [RBytes ((hdr ++ body) ++ [])] ((hdr ++ body) ++ []) (fun c x => eq_refl)) with (n := S (List.length ((hdr ++ body) ++ []))) as [K HK]; [|lia|].
  { exists [(hdr ++ body) ++ []]. split; auto. simpl. now rewrite !app_nil_r. }
  exists K. intros k Hkk. rewrite HK by auto. cbn [spec_reads]. rewrite complete_first_frame by auto.
  assert (Hf : exists r', handleFrame r true hdr body = (r', Ok (mkPt ty 0 0 body))).
  { destruct Ht0 as [h0 Ht0]. unfold handleFrame. destruct hdr as [|t0 h1]; [discriminate|]. injection Ht0 as -> ->.
    set (hdr := ty :: h0) in *.
    replace (negb _) with false.
    2:{ symmetry. apply Bool.negb_false_iff. simpl in Ht. intuition (subst; reflexivity). }
    rewrite Sz. change (2 ^ 14) with 16384 in Hb. unfold maxFragmentLen.
    destruct (N.ltb_spec (16384 + 256) (len body)); [lia|].
    assert (Ef : firstn (N.to_nat (len body)) body ++ repeat x00 (N.to_nat (len body) - List.length body) = body).
    { unfold len. rewrite Nnat.Nat2N.id, firstn_all, Nat.sub_diag. cbn [repeat]. apply app_nil_r. }
    rewrite Ef, Dg, Sq.
    assert (Z : N.shiftr seq 48 = 0) by (rewrite N.shiftr_div_pow2; now apply N.div_small).
    rewrite Z, Hl. fold (cur r). destruct (N.eqb_spec 0 (c_epoch (cur r))); [congruence|]. cbn [bind]. rewrite Hk. cbn [bind].
    cbn [p_fragment p_type p_seq].
    destruct (N.ltb_spec 16384 (len body)); [lia|].
    rewrite incr_ok by auto. cbn [bind]. rewrite He. eexists. reflexivity. }
  destruct Hf as [r' ->]. cbn [no_rekey]. f_equal.
  apply (spec_reads_fuel no_rekey true _ 0); simpl; auto with arith. intros c x. reflexivity.
Qed.
