(** Proofs about DTLS sending: fragments, retransmission, acknowledgements. *)
From Verif Require Import Base Syntax Frame FrameProofs Record RecordSpec RecordProofs RecordProofs2 Timer TimerProofs Handshake HandshakeSpec HandshakeProofs DtlsSpec DtlsProofs.

(** ** One fragment *)

Lemma fragmentAcked_spec sent seq off n : fragmentAcked sent seq off n = true <-> acked_over sent seq (N.of_nat off) (N.of_nat n).
Proof.
  unfold fragmentAcked, acked_over. rewrite existsb_exists, Exists_exists.
  split; intros (s & Hin & H); exists s; (split; [exact Hin|]).
  - apply andb_prop in H. destruct H as [H H4]. apply andb_prop in H. destruct H as [H H3]. apply andb_prop in H. destruct H as [H1 H2].
    apply N.eqb_eq in H2. apply Nat.leb_le in H3, H4. repeat split; auto; lia.
  - destruct H as (-> & <- & H3 & H4). rewrite N.eqb_refl. cbn [andb]. apply andb_true_intro. split; apply Nat.leb_le; lia.
Qed.
Lemma acked_app sent more seq o n : Forall (fun s => sf_acked s = false) more -> acked_over (sent ++ more) seq o n <-> acked_over sent seq o n.
Proof.
  intros H. unfold acked_over. rewrite Exists_app. split; [|tauto]. intros [?|H2]; [auto|]. exfalso. apply Exists_exists in H2.
  destruct H2 as (s & Hin & Hs & _). rewrite Forall_forall in H. rewrite (H s Hin) in Hs. discriminate.
Qed.

(** What sending does to a context: new records, new log entries, and counters of the cipher states. *)
Definition core_step (r r' : rcore) : Prop :=
  r_cipher r' = r_cipher r /\ r_dir r' = r_dir r /\ r_version r' = r_version r /\ r_datagram r' = r_datagram r /\ r_readCiphers r' = r_readCiphers r /\
  List.length (r_heap r') = List.length (r_heap r) /\ forall i, same_keys (get_cs r i) (get_cs r' i).
Definition sending (x x' : hctx) (recs : list bytes) (log : list sfrag) : Prop :=
  x_sent x' = x_sent x ++ log /\ Forall (fun s => sf_acked s = false) log /\ List.length log = List.length recs /\
  out_records x' = out_records x ++ recs /\ core_step (out_core x) (out_core x') /\
  hl_datagram (x_out x') = hl_datagram (x_out x) /\ hl_msgSeq (x_out x') = hl_msgSeq (x_out x) /\ hl_queued (x_out x') = hl_queued (x_out x) /\
  hl_max (x_out x') = hl_max (x_out x) /\ x_in x' = x_in x /\ x_waiting x' = x_waiting x /\ x_timers x' = x_timers x /\ x_timeout x' = x_timeout x.
Lemma same_keys_refl c : same_keys c c. Proof. repeat split. Qed.
Lemma same_keys_trans a b c : same_keys a b -> same_keys b c -> same_keys a c.
Proof. intros (A1 & A2 & A3) (B1 & B2 & B3). repeat split; congruence. Qed.
Lemma core_step_refl r : core_step r r.
Proof. repeat split. Qed.
Lemma core_step_trans a b c : core_step a b -> core_step b c -> core_step a c.
Proof.
  intros (A1 & A2 & A3 & A4 & A5 & A6 & A7) (B1 & B2 & B3 & B4 & B5 & B6 & B7).
  do 6 (split; [congruence|]). intros i. eapply same_keys_trans; eauto.
Qed.
Lemma sending_refl x : sending x x [] [].
Proof. repeat (split; [auto using core_step_refl; rewrite ?app_nil_r; reflexivity|]); auto. Qed.
Lemma sending_trans x y z r1 l1 r2 l2 : sending x y r1 l1 -> sending y z r2 l2 -> sending x z (r1 ++ r2) (l1 ++ l2).
Proof.
  intros (A1 & A2 & A3 & A4 & A5 & A6 & A7 & A8 & A9 & A10 & A11 & A12 & A13) (B1 & B2 & B3 & B4 & B5 & B6 & B7 & B8 & B9 & B10 & B11 & B12 & B13).
  split; [rewrite B1, A1; now rewrite app_assoc|]. split; [apply Forall_app; auto|]. split; [rewrite !app_length; congruence|].
  split; [rewrite B4, A4; now rewrite app_assoc|]. split; [eapply core_step_trans; eauto|]. repeat (split; [congruence|]). congruence.
Qed.

Lemma incr_keys c c' : incrementSequenceNumber c = Ok c' -> same_keys c c'.
Proof. intros H. apply incr_inv in H. destruct H as [_ ->]. repeat split. Qed.
Lemma core_step_set r i c' : incrementSequenceNumber (get_cs r i) = Ok c' -> core_step r (set_cs r i c').
Proof.
  intros H. unfold core_step, set_cs; simpl. repeat (split; [auto; rewrite ?set_nth_length; reflexivity|]).
  intros j. unfold get_cs; simpl. destruct (Nat.eq_dec i j) as [<-|Hne].
  - destruct (Nat.lt_ge_cases i (List.length (r_heap r))) as [Hl|Hl].
    + rewrite set_nth_same by auto. now apply incr_keys.
    + rewrite !nth_overflow; rewrite ?set_nth_length; auto. apply same_keys_refl.
  - rewrite set_nth_other by auto. apply same_keys_refl.
Qed.

Definition chunk (m : hmsg) (start n : nat) : hmsg :=
  mkHm (hm_type m) (hm_seq m) (firstn n (skipn start (hm_body m))) true (N.of_nat start) (hm_length m) None.

Lemma chunk_fragment m start n : (start + n <= List.length (hm_body m))%nat -> fragment_of m (chunk m start n) /\ len (hm_body (chunk m start n)) = N.of_nat n.
Proof.
  intros H. assert (L : len (hm_body (chunk m start n)) = N.of_nat n) by (unfold len; cbn [chunk hm_body]; rewrite firstn_length, skipn_length; lia).
  split; [|exact L]. unfold fragment_of. rewrite L. cbn [chunk hm_type hm_seq hm_datagram hm_length hm_cipher hm_offset hm_body].
  repeat (split; [reflexivity|]). split; [unfold len; lia|]. unfold part. now rewrite !Nat2N.id.
Qed.

Lemma writeFragment_dtls x m start room x' wrote next c :
  hl_datagram (x_out x) = true -> r_datagram (out_core x) = true -> hm_datagram m = true -> hm_cipher m = Some c -> (start <= List.length (hm_body m))%nat ->
  writeFragment x m start room = (x', Ok (wrote, next)) ->
  exists n, n = Nat.min (List.length (hm_body m) - start) (room - 12) /\ (12 < room)%nat /\ next = (start + n)%nat /\
  if wrote : bool then
    ~ acked_over (x_sent x) (hm_seq m) (N.of_nat start) (N.of_nat n) /\
    exists rec s, carries (get_cs (out_core x) c) rec (chunk m start n) /\ sending x x' [rec] [s] /\ 
      sf_seq s = hm_seq m /\ sf_offset s = start /\ sf_len s = n /\
      exists c', protect (out_core x) c (mkPt rtHandshake 0 0 (hm_marshal (chunk m start n))) 0 = Ok (rec, c') /\ out_core x' = set_cs (out_core x) c c' /\
      sf_record s = combineSeq (cur (out_core x)) true
  else acked_over (x_sent x) (hm_seq m) (N.of_nat start) (N.of_nat n) /\ x' = x.
Proof.
  intros Hd Hdg Hm Hc Hs. unfold writeFragment. rewrite Hm, Hd, Hc. cbn [handshakeHeaderLen].
  destruct (Nat.leb_spec room 12) as [|Hr]; [discriminate|]. cbn [Nat.ltb Nat.leb].
  set (n := Nat.min _ _). intros H. exists n. split; [reflexivity|]. split; [lia|].
  destruct (fragmentAcked _ _ _ n) eqn:Ea.
  - injection H as <- <- <-. split; [reflexivity|]. split; [now apply fragmentAcked_spec|reflexivity].
  - assert (Em : forall ci, hm_marshal (mkHm (hm_type m) (hm_seq m) (firstn n (skipn start (hm_body m))) true (N.of_nat start) (hm_length m) ci) = hm_marshal (chunk m start n)) by reflexivity.
    rewrite Em in H. destruct (chunk_fragment m start n) as [_ Hl]; [subst n; lia|]. unfold len in Hl. cbn [chunk hm_body] in Hl.
    unfold writeRecordWithPadding in H. cbn [l_core] in H.
    destruct (protect (l_core (hl_conn (x_out x))) c _ 0) as [[rec c']|e| |] eqn:Ep; try discriminate. injection H as <- <- <-.
    split; [reflexivity|]. split; [intros G; apply fragmentAcked_spec in G; congruence|].
    assert (Hi : incrementSequenceNumber (get_cs (out_core x) c) = Ok c') by (apply protect_inv in Ep; destruct Ep as (? & ? & _ & _ & Hi & _); exact Hi).
    eexists rec, _. split; [|split].
    + exists (out_core x), c, c'. split; [exact Ep|]. split; [exact Hdg|apply same_keys_refl].
    + unfold sending. cbn. split; [reflexivity|]. split; [repeat constructor|]. split; [reflexivity|]. split; [reflexivity|].
      split; [apply core_step_set; exact Hi|]. repeat (split; [reflexivity|]). reflexivity.
    + cbn. split; [reflexivity|]. split; [reflexivity|]. split; [lia|]. exists c'. split; [exact Ep|]. split; reflexivity.
Qed.

(** ** Whole messages *)

Lemma carries_keys c d rec f : same_keys d c -> carries c rec f -> carries d rec f.
Proof. intros (A1 & A2 & A3) (w & i & c' & H1 & H2 & H3 & H4 & H5). exists w, i, c'. split; [exact H1|]. split; [exact H2|]. repeat split; congruence. Qed.

(** The part of a message from [start] on. *)
Definition unacked_from (sent : list sfrag) (m : hmsg) (start : nat) (fs : list hmsg) : Prop :=
  Forall (fragment_of m) fs /\
  Forall (fun f => ~ acked_over sent (hm_seq m) (hm_offset f) (len (hm_body f))) fs /\
  (forall i, N.of_nat start <= i < len (hm_body m) -> Exists (byte_of i) fs \/ exists o n, o <= i < o + n /\ acked_over sent (hm_seq m) o n) /\
  (fs = [] -> exists n, acked_over sent (hm_seq m) (N.of_nat start) n).

Lemma writeMessage_loop_dtls m c : hm_datagram m = true -> hm_cipher m = Some c ->
  forall fuel x start written x' k, hl_datagram (x_out x) = true -> r_datagram (out_core x) = true -> (start <= List.length (hm_body m))%nat ->
  writeMessage_loop fuel x m start written = (x', Ok k) ->
  exists recs log fs, sending x x' recs log /\ k = (written + List.length recs)%nat /\ unacked_from (x_sent x) m start fs /\
    Forall2 (carries (get_cs (out_core x) c)) recs fs /\
    Forall2 (fun s f => sf_seq s = hm_seq f /\ N.of_nat (sf_offset s) = hm_offset f /\ N.of_nat (sf_len s) = len (hm_body f)) log fs.
Proof.
  intros Hm Hc. induction fuel as [|fuel IH]; intros x start written x' k Hd Hr Hs H; [discriminate|]. cbn [writeMessage_loop] in H.
  destruct (writeFragment x m start (hl_max (x_out x))) as [x1 [[wrote next]|e| |]] eqn:E; try discriminate. cbn [sbind] in H.
  destruct (writeFragment_dtls _ _ _ _ _ _ _ c Hd Hr Hm Hc Hs E) as (n & En & Hroom & -> & Hw).
  assert (Hn : (start + n <= List.length (hm_body m))%nat) by lia.
  destruct (chunk_fragment m start n Hn) as [Hf Hl].
  destruct wrote.
  - destruct Hw as (Hna & rec & s & Hcar & Hsnd & S1 & S2 & S3 & _).
    assert (Hfs : N.of_nat (sf_offset s) = hm_offset (chunk m start n) /\ N.of_nat (sf_len s) = len (hm_body (chunk m start n))).
    { rewrite Hl, S2, S3. split; reflexivity. }
    destruct (Nat.leb_spec (List.length (hm_body m)) (start + n)) as [Hle|Hgt].
    + injection H as <- <-. exists [rec], [s], [chunk m start n]. split; [exact Hsnd|]. split; [simpl; lia|].
      split; [|split; [repeat constructor; exact Hcar|repeat constructor; [exact S1|apply Hfs|apply Hfs]]].
      split; [repeat constructor; apply Hf|]. split; [repeat constructor; rewrite Hl; exact Hna|]. split; [|discriminate].
      intros i Hi. left. left. unfold byte_of. rewrite Hl. cbn [chunk hm_offset]. unfold len in Hi. lia.
    + pose proof Hsnd as (B1 & B2 & B3 & B4 & B5 & B6 & _).
      destruct (IH x1 (start + n)%nat (S written) x' k) as (recs & log & fs & I1 & I2 & (I3 & I4 & I5 & I6) & I7 & I8); auto; try congruence.
      { destruct B5 as (_ & _ & _ & B5 & _). congruence. }
      exists (rec :: recs), (s :: log), (chunk m start n :: fs). split; [apply (sending_trans _ _ _ [rec] [s] _ _ Hsnd I1)|]. split; [simpl; lia|].
      split; [|split; constructor; auto].
      * assert (HA : forall o q, acked_over (x_sent x1) (hm_seq m) o q <-> acked_over (x_sent x) (hm_seq m) o q).
        { intros o q. rewrite B1. now apply acked_app. }
        split; [constructor; [apply Hf|exact I3]|]. split.
        { constructor; [rewrite Hl; exact Hna|]. eapply Forall_impl; [|exact I4]. intros f Hx G. apply Hx. now apply HA. }
        split; [|discriminate]. intros i Hi. destruct (N_lt_le_dec i (N.of_nat (start + n))) as [Hlt|Hge].
        -- left. left. unfold byte_of. rewrite Hl. cbn [chunk hm_offset]. lia.
        -- destruct (I5 i) as [He|(o & q & Ho & Hq)]; [lia|left; now right|]. right. exists o, q. now rewrite <- HA.
      * eapply Forall2_impl; [|exact I7]. intros a b. apply carries_keys. destruct B5 as (_ & _ & _ & _ & _ & _ & B5). apply B5.
  - destruct Hw as (Ha & ->). destruct (Nat.leb_spec (List.length (hm_body m)) (start + n)) as [Hle|Hgt].
    + injection H as <- <-. exists [], [], []. split; [apply sending_refl|]. split; [simpl; lia|]. split; [|split; constructor].
      split; [constructor|]. split; [constructor|]. split; [|intros _; eexists; exact Ha].
      intros i Hi. right. exists (N.of_nat start), (N.of_nat n). split; [unfold len in Hi; lia|exact Ha].
    + destruct (IH x (start + n)%nat written x' k) as (recs & log & fs & I1 & I2 & (I3 & I4 & I5 & I6) & I7 & I8); auto.
      exists recs, log, fs. split; [exact I1|]. split; [exact I2|]. split; [|split; assumption].
      split; [exact I3|]. split; [exact I4|]. split; [|intros _; eexists; exact Ha].
      intros i Hi. destruct (N_lt_le_dec i (N.of_nat (start + n))) as [Hlt|Hge]; [|apply I5; lia].
      right. exists (N.of_nat start), (N.of_nat n). split; [lia|exact Ha].
Qed.

Lemma cipher_step core core' m : core_step core core' -> queued_ok core m -> queued_ok core' m /\ same_keys (cipher_of core m) (cipher_of core' m).
Proof.
  intros (A1 & A2 & A3 & A4 & A5 & A6 & A7) (H1 & c & H2 & H3). unfold queued_ok, cipher_of. rewrite H2. split; [|apply A7].
  split; [exact H1|]. exists c. rewrite A6. auto.
Qed.

Lemma writeMessages_dtls ms : forall x x' k, hl_datagram (x_out x) = true -> r_datagram (out_core x) = true -> Forall (queued_ok (out_core x)) ms ->
  writeMessages x ms = (x', Ok k) ->
  exists recs log fss, sending x x' recs log /\ k = List.length recs /\ Forall2 (unacked_of (x_sent x)) ms fss /\
    Forall2 (fun rec '(m, f) => carries (cipher_of (out_core x) m) rec f) recs (concat (map (fun '(m, fs) => map (pair m) fs) (combine ms fss))) /\
    Forall2 (fun s f => sf_seq s = hm_seq f /\ N.of_nat (sf_offset s) = hm_offset f /\ N.of_nat (sf_len s) = len (hm_body f)) log (concat fss).
Proof.
  induction ms as [|m ms IH]; intros x x' k Hd Hr HF H; cbn [writeMessages] in H.
  - injection H as <- <-. exists [], [], []. split; [apply sending_refl|]. repeat (split; [constructor|]). constructor.
  - inversion HF as [|? ? Hm HF']; subst.
    destruct (writeMessage x m) as [x1 [n|e| |]] eqn:E; try discriminate. cbn [sbind] in H.
    destruct (writeMessages x1 ms) as [x2 [n2|e| |]] eqn:E2; try discriminate. cbn [sbind] in H. injection H as <- <-.
    unfold writeMessage in E. destruct (_ <? _); [discriminate|]. pose proof Hm as (Hm1 & c & Hc & Hcl).
    destruct (writeMessage_loop_dtls m c Hm1 Hc _ _ _ _ _ _ Hd Hr (Nat.le_0_l _) E) as (recs & log & fs & I1 & I2 & (I3 & I4 & I5 & I6) & I7 & I8).
    pose proof I1 as (B1 & B2 & B3 & B4 & B5 & B6 & _).
    destruct (IH x1 x2 n2) as (recs2 & log2 & fss & J1 & J2 & J3 & J4 & J5); auto; try congruence.
    { destruct B5 as (_ & _ & _ & B5 & _). congruence. }
    { eapply Forall_impl; [|exact HF']. intros q Hq. now apply (cipher_step (out_core x)). }
    exists (recs ++ recs2), (log ++ log2), (fs :: fss). split; [eapply sending_trans; eauto|]. split; [rewrite app_length; lia|].
    assert (HA : forall q o l, acked_over (x_sent x1) q o l <-> acked_over (x_sent x) q o l).
    { intros q o l. rewrite B1. now apply acked_app. }
    split; [|split].
    + constructor.
      * split; [exact I3|]. split; [exact I4|]. split; [|exact I6]. intros i Hi. apply I5. simpl. lia.
      * eapply Forall2_impl; [|exact J3]. intros q gs (G1 & G2 & G3 & G4). split; [exact G1|].
        split; [eapply Forall_impl; [|exact G2]; intros f Hx G; apply Hx; now apply HA|].
        split; [intros i Hi; destruct (G3 i Hi) as [?|(o & l & Ho & Hl)]; [now left|right; exists o, l; now rewrite <- HA]|].
        intros Hx. destruct (G4 Hx) as (l & Hl). exists l. now rewrite <- HA.
    + cbn [combine map concat]. apply Forall2_app.
      * clear - I7 Hc. unfold cipher_of. induction I7; constructor; [now rewrite Hc|auto].
      * assert (Hq : Forall (queued_ok (out_core x)) (map fst (concat (map (fun '(m, fs) => map (pair m) fs) (combine ms fss))))).
        { clear - HF'. revert fss. induction HF' as [|m ms Hm Hms IH]; intros [|fs fss]; cbn [combine map concat]; try constructor.
          rewrite map_app. apply Forall_app. split; [|apply IH]. rewrite map_map. cbn [fst]. clear - Hm. induction fs; constructor; auto. }
        clear - J4 Hq B5. revert Hq. induction J4 as [|rec [m f] recs l H HF IH]; intros Hq; constructor; [|apply IH; now inversion Hq].
        inversion Hq as [|? ? H1 _]; subst. cbn [fst] in H1. destruct (cipher_step _ _ _ B5 H1) as [_ Hk]. eapply carries_keys; eauto.
    + cbn [concat]. now apply Forall2_app.
Qed.

(** ** Sending succeeds *)

Lemma dtls_protect core i pt n size : dtls_writable (n + 1) size core -> (i < List.length (r_heap core))%nat -> (List.length (p_fragment pt) <= size)%nat ->
  exists rec c', protect core i pt 0 = Ok (rec, c') /\ dtls_writable n size (set_cs core i c').
Proof.
  intros (W1 & W2 & W3 & W4) Hi Hl. destruct (W4 i Hi) as [Hs Hk].
  assert (Hv : version_ok core) by (intros _; tauto).
  assert (H : exists l', writeRecordWithPadding (fresh core []) pt i 0 = (l', Ok tt)).
  { destruct (c_aead (get_cs core i)) as [k|] eqn:Ek.
    - destruct Hk as (Ha & Hiv & Ho). apply (write_protected (fresh core []) pt i k 0); auto; cbn [fresh l_core]; auto; unfold len; lia.
    - apply write_clear; auto; cbn [fresh l_core]; auto; unfold len; lia. }
  destruct H as (l' & H). unfold writeRecordWithPadding in H. cbn [fresh l_core] in H.
  destruct (protect core i pt 0) as [[rec c']|e| |] eqn:Ep; try discriminate. exists rec, c'. split; [reflexivity|].
  apply protect_inv in Ep. destruct Ep as (_ & _ & _ & _ & Hc & _). apply incr_inv in Hc. destruct Hc as [_ ->].
  split; [exact W1|]. split; [exact W2|]. split; [exact W3|]. unfold set_cs at 1; cbn [r_heap]. rewrite set_nth_length. intros j Hj.
  unfold get_cs, set_cs; cbn [r_heap]. destruct (Nat.eq_dec i j) as [<-|Hne].
  - rewrite set_nth_same by auto. cbn [c_seq c_aead c_iv]. destruct (W4 i Hi) as [G1 G2]. split; [|exact G2]. fold (get_cs core i). lia.
  - rewrite set_nth_other by auto. destruct (W4 j Hj) as [G1 G2]. split; [unfold get_cs in G1; lia|exact G2].
Qed.
Lemma dtls_writable_le n k size core : k <= n -> dtls_writable n size core -> dtls_writable k size core.
Proof. intros H (W1 & W2 & W3 & W4). repeat (split; [assumption|]). intros i Hi. destruct (W4 i Hi). split; [lia|assumption]. Qed.

Lemma writeFragment_ok x m start c n : hl_datagram (x_out x) = true -> hm_datagram m = true -> hm_cipher m = Some c -> (c < List.length (r_heap (out_core x)))%nat ->
  (start <= List.length (hm_body m))%nat -> (12 < hl_max (x_out x))%nat -> dtls_writable (n + 1) (hl_max (x_out x)) (out_core x) ->
  exists x' wrote next, writeFragment x m start (hl_max (x_out x)) = (x', Ok (wrote, next)) /\ dtls_writable n (hl_max (x_out x)) (out_core x').
Proof.
  intros Hd Hm Hc Hcl Hs Hr Hw. unfold writeFragment. rewrite Hm, Hd, Hc. cbn [handshakeHeaderLen].
  destruct (Nat.leb_spec (hl_max (x_out x)) 12) as [|_]; [lia|]. cbn [Nat.ltb Nat.leb].
  set (k := Nat.min _ _). destruct (fragmentAcked _ _ _ k).
  { do 3 eexists. split; [reflexivity|]. apply (dtls_writable_le (n + 1)); [lia|exact Hw]. }
  set (buf := hm_marshal _). assert (Lb : (List.length buf <= hl_max (x_out x))%nat).
  { unfold buf, hm_marshal. cbn [hm_datagram hm_type hm_length hm_seq hm_offset hm_body]. rewrite !app_length, !be_length, firstn_length, skipn_length. simpl List.length. lia. }
  destruct (dtls_protect (out_core x) c (mkPt rtHandshake 0 0 buf) n _ Hw Hcl Lb) as (rec & c' & Ep & Hw').
  unfold writeRecordWithPadding. cbn [l_core]. unfold out_core in Ep. rewrite Ep.
  do 3 eexists. split; [reflexivity|]. exact Hw'.
Qed.

Lemma writeMessage_loop_ok m c n : hm_datagram m = true -> hm_cipher m = Some c ->
  forall fuel x start written, hl_datagram (x_out x) = true -> r_datagram (out_core x) = true -> (c < List.length (r_heap (out_core x)))%nat -> (12 < hl_max (x_out x))%nat ->
  (start <= List.length (hm_body m))%nat -> (List.length (hm_body m) - start < fuel)%nat ->
  dtls_writable (N.of_nat (List.length (hm_body m) - start) + 1 + n) (hl_max (x_out x)) (out_core x) ->
  exists x' k, writeMessage_loop fuel x m start written = (x', Ok k) /\ dtls_writable n (hl_max (x_out x)) (out_core x').
Proof.
  intros Hm Hc. induction fuel as [|fuel IH]; intros x start written Hd Hr Hcl H12 Hs Hf Hw; [lia|]. cbn [writeMessage_loop].
  destruct (writeFragment_ok x m start c (N.of_nat (List.length (hm_body m) - start) + n)) as (x1 & wrote & next & E & Hw1); auto.
  { eapply dtls_writable_le; [|exact Hw]. lia. }
  rewrite E. cbn [sbind].
  destruct (writeFragment_dtls _ _ _ _ _ _ _ c Hd Hr Hm Hc Hs E) as (q & Eq & _ & -> & Hx).
  assert (Hsnd : exists recs log, sending x x1 recs log).
  { destruct wrote; [destruct Hx as (_ & rec & s & _ & Hsn & _); eauto|destruct Hx as (_ & ->); eauto using sending_refl]. }
  destruct Hsnd as (recs & log & B1 & B2 & B3 & B4 & (C1 & C2 & C3 & C4 & C5 & C6 & C7) & B6 & B7 & B8 & B9 & _).
  destruct (Nat.leb_spec (List.length (hm_body m)) (start + q)) as [Hle|Hgt].
  - do 2 eexists. split; [reflexivity|]. eapply dtls_writable_le; [|exact Hw1]. lia.
  - rewrite <- B9. apply IH; try congruence; try lia. rewrite B9. eapply dtls_writable_le; [|exact Hw1]. lia.
Qed.

Lemma writeMessages_ok ms : forall x n, hl_datagram (x_out x) = true -> r_datagram (out_core x) = true -> (12 < hl_max (x_out x))%nat ->
  Forall (queued_ok (out_core x)) ms -> Forall (fun m => len (hm_body m) <= 2 ^ 24) ms ->
  dtls_writable (body_bytes ms + n) (hl_max (x_out x)) (out_core x) -> exists x' k, writeMessages x ms = (x', Ok k).
Proof.
  induction ms as [|m ms IH]; intros x n Hd Hr H12 HF HL Hw; cbn [writeMessages]; [eauto|].
  inversion HF as [|? ? Hm HF']; subst. inversion HL as [|? ? Hl HL']; subst. pose proof Hm as (Hm1 & c & Hc & Hcl).
  change (body_bytes (m :: ms)) with (len (hm_body m) + 1 + body_bytes ms) in Hw.
  destruct (writeMessage_loop_ok m c (body_bytes ms + n) Hm1 Hc (S (List.length (hm_body m))) x 0 0) as (x1 & k & E & Hw1); auto; try lia.
  { eapply dtls_writable_le; [|exact Hw]. unfold len. lia. }
  assert (Em : writeMessage x m = (x1, Ok k)).
  { unfold writeMessage. destruct (N.ltb_spec maxHandshakeMessageLen (len (hm_body m))) as [Hb|_]; [unfold maxHandshakeMessageLen in Hb; lia|exact E]. }
  rewrite Em. cbn [sbind].
  destruct (writeMessage_loop_dtls m c Hm1 Hc _ _ _ _ _ _ Hd Hr (Nat.le_0_l _) E) as (recs & log & fs & (B1 & B2 & B3 & B4 & B5 & B6 & B7 & B8 & B9 & _) & _).
  destruct (IH x1 n) as (x2 & k2 & E2).
  - congruence.
  - destruct B5 as (_ & _ & _ & B5 & _). congruence.
  - rewrite B9. exact H12.
  - eapply Forall_impl; [|exact HF']. intros q Hq. now apply (cipher_step (out_core x)).
  - exact HL'.
  - rewrite B9. exact Hw1.
  - rewrite E2. cbn [sbind]. eauto.
Qed.

Theorem retransmission x x' n : hl_datagram (x_out x) = true -> r_datagram (out_core x) = true -> Forall (queued_ok (out_core x)) (hl_queued (x_out x)) ->
  sendQueued x = (x', Ok n) ->
  exists recs fss, out_records x' = out_records x ++ recs /\ n = List.length recs /\ hl_queued (x_out x') = hl_queued (x_out x) /\
    Forall2 (unacked_of (x_sent x)) (hl_queued (x_out x)) fss /\
    Forall2 (fun rec '(m, f) => carries (cipher_of (out_core x) m) rec f) recs (concat (map (fun '(m, fs) => map (pair m) fs) (combine (hl_queued (x_out x)) fss))).
Proof.
  intros Hd Hr HF H. unfold sendQueued in H. destruct (writeMessages x (hl_queued (x_out x))) as [x1 r] eqn:E. injection H as <- ->.
  destruct (writeMessages_dtls _ _ _ _ Hd Hr HF E) as (recs & log & fss & (B1 & B2 & B3 & B4 & B5 & B6 & B7 & B8 & _) & J2 & J3 & J4 & J5).
  rewrite B6, Hd. exists recs, fss. repeat (split; [assumption|]). exact J4.
Qed.
Theorem retransmission_ok x : hl_datagram (x_out x) = true -> (12 < hl_max (x_out x))%nat -> Forall (queued_ok (out_core x)) (hl_queued (x_out x)) ->
  Forall (fun m => len (hm_body m) <= 2 ^ 24) (hl_queued (x_out x)) ->
  dtls_writable (body_bytes (hl_queued (x_out x))) (hl_max (x_out x)) (out_core x) -> exists x' n, sendQueued x = (x', Ok n).
Proof.
  intros Hd H12 HF HL Hw. destruct (writeMessages_ok (hl_queued (x_out x)) x 0) as (x' & k & E); auto.
  - apply Hw.
  - now rewrite N.add_0_r.
  - unfold sendQueued. rewrite E. eauto.
Qed.

(** ** What an acknowledgement does to the flight *)

Lemma Forall2_len {A B} (R : A -> B -> Prop) l m : Forall2 R l m -> List.length l = List.length m.
Proof. induction 1; simpl; congruence. Qed.
Lemma all_nil {A B} (l : list A) (fss : list (list B)) : List.length l = List.length fss ->
  concat (map (fun '(m, fs) => map (pair m) fs) (combine l fss)) = [] -> Forall (fun fs => fs = []) fss.
Proof.
  revert fss. induction l as [|a l IH]; intros [|fs fss] Hl H; try discriminate; [constructor|]. cbn [combine map concat] in H.
  apply app_eq_nil in H. destruct H as [H1 H2]. apply map_eq_nil in H1. constructor; [exact H1|]. apply IH; [simpl in Hl; lia|exact H2].
Qed.

Theorem ack_keeps clock now x data x' : hl_datagram (x_out x) = true -> r_datagram (out_core x) = true ->
  Forall (queued_ok (out_core x)) (hl_queued (x_out x)) -> reachable clock (x_timers x) ->
  processAck now x data = (x', Ok tt) ->
  (hl_queued (x_out x') = hl_queued (x_out x) /\ In (mkT retransmitTimerLabel (Some CbRetransmit) (now + x_timeout x)) (armed (x_timers x'))) \/
  (hl_queued (x_out x') = [] /\ Forall (acknowledged (x_sent x')) (hl_queued (x_out x))).
Proof.
  intros Hd Hr HF Ht H. unfold processAck in H. cbv zeta in H.
  destruct (unmarshal _ _ data) as [[v read]|e| |]; try discriminate. destruct (negb _); [discriminate|].
  set (x1 := set_sent _ _) in H. destruct (sendQueued x1) as [x2 [n|e| |]] eqn:E; try discriminate. cbn [sbind] in H.
  assert (HF1 : Forall (queued_ok (out_core x1)) (hl_queued (x_out x1))) by exact HF.
  unfold sendQueued in E. destruct (writeMessages x1 (hl_queued (x_out x1))) as [x3 r] eqn:Ew. injection E as <- ->.
  destruct (writeMessages_dtls _ x1 x3 n Hd Hr HF1 Ew) as (recs & log & fss & (B1 & B2 & B3 & B4 & B5 & B6 & B7 & B8 & B9 & B10 & B11 & B12 & B13) & J2 & J3 & J4 & J5).
  rewrite B6 in H. change (hl_datagram (x_out x1)) with (hl_datagram (x_out x)) in H. rewrite Hd in H.
  change (hl_queued (x_out x1)) with (hl_queued (x_out x)) in *.
  destruct (Nat.eqb_spec n 0) as [->|Hn].
  - right. injection H as <-. cbn [clearQueued x_out set_out set_queue hl_queued x_sent]. split; [reflexivity|].
    destruct recs as [|? ?]; [|discriminate]. destruct log; [|discriminate]. apply Forall2_len in J4. symmetry in J4. apply length_zero_iff_nil in J4. rename J4 into Hc.
    apply all_nil in Hc; [|apply Forall2_len in J3; exact J3].
    rewrite app_nil_r in B1. change (x_sent x3 = x_sent x1) in B1. rewrite B1.
    clear - J3 Hc. induction J3 as [|m fs ms fss (G1 & G2 & G3 & G4) HF IH]; [constructor|].
    inversion Hc; subst. constructor; [|apply IH; assumption]. split; [|apply G4; reflexivity].
    intros i Hi. destruct (G3 i Hi) as [He|He]; [inversion He|exact He].
  - left. injection H as <-. split; [exact B8|]. unfold armRetransmit. cbn [set_timers x_timers].
    assert (Hc : reachable clock (x_timers x3)) by (rewrite B12; cbn; now apply re_cancel).
    destruct (start_armed clock now retransmitTimerLabel CbRetransmit (x_timeout x3) (x_timers x3) Hc) as (a & b & _ & Ea).
    rewrite Ea, B13. apply in_or_app. right. left. reflexivity.
Qed.
