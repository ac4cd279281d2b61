(** Property C73: the records sent under a key tell their lengths and nothing else. *)
From Verif Require Import Base Frame Record RecordSpec RecordProofs2 Handshake Crypto Messages Negotiation Machine Conn ConnSpec Toy PropRecord PropCrypto PropTrace AgreeSpec ChannelSpec JointSpec CompleteSpec PropChannel PlaySpec PropComplete Threads ThreadSpec PropThreads PropRace HideSpec.

Lemma cur_in r k : c_aead (cur r) = Some k -> (r_cipher r < List.length (r_heap r))%nat.
Proof. unfold cur, get_cs. intros H. destruct (Nat.lt_ge_cases (r_cipher r) (List.length (r_heap r))) as [L|L]; [exact L|]. rewrite nth_overflow in H by exact L. discriminate H. Qed.
Lemma nth_set_same {A} (l : list A) : forall i x d, (i < List.length l)%nat -> nth i (set_nth i x l) d = x.
Proof. induction l as [|y l IH]; intros [|i] x d L; cbn [List.length set_nth nth] in *; [lia..|reflexivity|apply IH; lia]. Qed.
Lemma outside_app datagram h a b : List.length h = recordHeaderLen datagram -> List.length a = List.length b -> same_outside datagram (h ++ a) (h ++ b).
Proof.
  intros Lh L. split; [rewrite !app_length; lia|]. replace (if datagram then 13 else 5)%nat with (List.length h + 0)%nat by (rewrite Lh; destruct datagram; reflexivity). now rewrite !firstn_app_2.
Qed.
Lemma padded_same k l1 l2 pt1 pad1 pt2 pad2 l1' l2' r1 r2 : lengthens k -> l_core l1 = l_core l2 -> c_aead (cur (l_core l1)) = Some k -> padded_length (pt1, pad1) = padded_length (pt2, pad2) ->
  writeRecordWithPadding l1 pt1 (r_cipher (l_core l1)) pad1 = (l1', r1) -> writeRecordWithPadding l2 pt2 (r_cipher (l_core l2)) pad2 = (l2', r2) ->
  r1 = r2 /\ l_core l1' = l_core l2' /\ c_aead (cur (l_core l1')) = Some k /\ r_datagram (l_core l1') = r_datagram (l_core l1) /\
  exists n1 n2, l_out l1' = l_out l1 ++ n1 /\ l_out l2' = l_out l2 ++ n2 /\ Forall2 (same_outside (r_datagram (l_core l1))) n1 n2.
Proof.
  intros Ln Co Ka Pl W1 W2. unfold padded_length in Pl. cbn [fst snd] in Pl. unfold writeRecordWithPadding in *. rewrite <- Co in W2. pose proof (cur_in _ _ Ka) as Hi. set (r := l_core l1) in *. unfold cur in Ka.
  unfold protect in *. rewrite Ka in *. replace (List.length (p_fragment pt2) + 1 + pad2 + overhead k)%nat with (List.length (p_fragment pt1) + 1 + pad1 + overhead k)%nat in W2 by lia.
  assert (forall A (x : res A), (l1, r1) = (l1', r1) -> (l2, r2) = (l2', r2) -> r1 = r2 -> r1 = r2 /\ l_core l1' = l_core l2' /\ c_aead (cur (l_core l1')) = Some k /\ r_datagram (l_core l1') = r_datagram r /\
    exists n1 n2, l_out l1' = l_out l1 ++ n1 /\ l_out l2' = l_out l2 ++ n2 /\ Forall2 (same_outside (r_datagram r)) n1 n2) as Stay.
  { intros A _ E1 E2 E. injection E1 as <-. injection E2 as <-. split; [exact E|]. split; [exact Co|]. split; [exact Ka|]. split; [reflexivity|]. exists [], []. rewrite !app_nil_r. repeat split. constructor. }
  destruct (recordHeader (r_datagram r) (r_version r) rtApplicationData _ _) as [h|e| |] eqn:Rh; cbn [bind] in W1, W2; try (injection W1 as <- <-; injection W2 as <- <-; now apply (Stay unit Panic)).
  unfold encrypt in *. destruct (r_dir r); cbn [bind] in W1, W2; try (injection W1 as <- <-; injection W2 as <- <-; now apply (Stay unit Panic)).
  destruct (computeNonce _ _) as [n|e| |]; cbn [bind] in W1, W2; try (injection W1 as <- <-; injection W2 as <- <-; now apply (Stay unit Panic)).
  assert (List.length (seal k n h (p_fragment pt1 ++ [p_type pt1] ++ repeat x00 pad1)) = List.length (seal k n h (p_fragment pt2 ++ [p_type pt2] ++ repeat x00 pad2))) as Ls by (rewrite !Ln, !app_length, !repeat_length; cbn [List.length]; lia).
  set (b1 := seal k n h (p_fragment pt1 ++ [p_type pt1] ++ repeat x00 pad1)) in *. set (b2 := seal k n h (p_fragment pt2 ++ [p_type pt2] ++ repeat x00 pad2)) in *.
  assert (len b1 = len b2) as Lb by (unfold len; now rewrite Ls). rewrite <- Lb in W2.
  destruct (maxFragmentLen <? len b1); cbn [bind] in W1, W2; [injection W1 as <- <-; injection W2 as <- <-; now apply (Stay unit Panic)|].
  destruct (incrementSequenceNumber _) as [c'|e| |] eqn:Ic; cbn [bind] in W1, W2; try (injection W1 as <- <-; injection W2 as <- <-; now apply (Stay unit Panic)).
  injection W1 as <- <-. injection W2 as <- <-. cbn [l_core l_out]. split; [reflexivity|]. split; [reflexivity|]. split.
  - unfold cur, get_cs. cbn [set_cs r_cipher r_heap]. rewrite nth_set_same by exact Hi. unfold incrementSequenceNumber in Ic. destruct (_ <=? _); [discriminate Ic|]. injection Ic as <-. exact Ka.
  - split; [reflexivity|]. exists [h ++ b1], [h ++ b2]. split; [reflexivity|]. split; [reflexivity|]. constructor; [|constructor]. apply outside_app; [|exact Ls]. eapply recordHeader_len. exact Rh.
Qed.
Lemma padded_all k ps1 : forall ps2 l1 l2 l1' l2' rs1 rs2, lengthens k -> l_core l1 = l_core l2 -> c_aead (cur (l_core l1)) = Some k -> map padded_length ps1 = map padded_length ps2 ->
  write_padded l1 ps1 = (l1', rs1) -> write_padded l2 ps2 = (l2', rs2) ->
  rs1 = rs2 /\ l_core l1' = l_core l2' /\ exists n1 n2, l_out l1' = l_out l1 ++ n1 /\ l_out l2' = l_out l2 ++ n2 /\ Forall2 (same_outside (r_datagram (l_core l1))) n1 n2.
Proof.
  induction ps1 as [|[pt1 pad1] ps1 IH]; intros [|[pt2 pad2] ps2] l1 l2 l1' l2' rs1 rs2 Ln Co Ka Pl W1 W2; try discriminate Pl.
  - injection W1 as <- <-. injection W2 as <- <-. split; [reflexivity|]. split; [exact Co|]. exists [], []. rewrite !app_nil_r. repeat split. constructor.
  - cbn [map] in Pl. injection Pl as Ph Pt. cbn [write_padded] in W1, W2.
    destruct (writeRecordWithPadding l1 pt1 _ pad1) as [m1 r1] eqn:A1. destruct (writeRecordWithPadding l2 pt2 _ pad2) as [m2 r2] eqn:A2.
    destruct (write_padded m1 ps1) as [k1 q1] eqn:B1. destruct (write_padded m2 ps2) as [k2 q2] eqn:B2. injection W1 as <- <-. injection W2 as <- <-.
    destruct (padded_same _ _ _ _ _ _ _ _ _ _ _ Ln Co Ka Ph A1 A2) as (<- & Cm & Km & Dm & n1 & n2 & O1 & O2 & F).
    destruct (IH _ _ _ _ _ _ _ Ln Cm Km Pt B1 B2) as (<- & Ck & m1' & m2' & P1 & P2 & F'). split; [reflexivity|]. split; [exact Ck|].
    exists (n1 ++ m1'), (n2 ++ m2'). rewrite P1, P2, O1, O2, !app_assoc. split; [reflexivity|]. split; [reflexivity|]. apply Forall2_app; [exact F|]. rewrite <- Dm. exact F'.
Qed.

Lemma padded_hide k l ps1 ps2 l1 l2 rs1 rs2 : lengthens k -> c_aead (cur (l_core l)) = Some k -> map padded_length ps1 = map padded_length ps2 ->
  write_padded l ps1 = (l1, rs1) -> write_padded l ps2 = (l2, rs2) ->
  rs1 = rs2 /\ l_core l1 = l_core l2 /\ exists n1 n2, l_out l1 = l_out l ++ n1 /\ l_out l2 = l_out l ++ n2 /\ Forall2 (same_outside (r_datagram (l_core l))) n1 n2.
Proof. intros Ln. now apply padded_all. Qed.
(** C73. Fragments of any types and contents that are as long as each other with their padding: *)
Theorem C73_padding : forall k l ps1 ps2 l1 l2 rs1 rs2, lengthens k -> c_aead (cur (l_core l)) = Some k -> map padded_length ps1 = map padded_length ps2 ->
  write_padded l ps1 = (l1, rs1) -> write_padded l ps2 = (l2, rs2) ->
  rs1 = rs2 /\ l_core l1 = l_core l2 /\ exists n1 n2, l_out l1 = l_out l ++ n1 /\ l_out l2 = l_out l ++ n2 /\ Forall2 (same_outside (r_datagram (l_core l))) n1 n2.
Proof. exact padded_hide. Qed.
Print Assumptions C73_padding.

(** ** [Write] *)

Fixpoint writes (c : conn) (buffers : list bytes) : conn * list (nat * res unit) :=
  match buffers with
  | [] => (c, [])
  | b :: bs => let '(c, r) := write c b in let '(c, rs) := writes c bs in (c, r :: rs)
  end.
Definition alike (k : aead) (c1 c2 : conn) : Prop :=
  is_connected c1 = is_connected c2 /\ c_isClient c1 = c_isClient c2 /\ l_core (c_out c1) = l_core (c_out c2) /\ c_aead (cur (l_core (c_out c1))) = Some k.
Definition more (c1 c2 c1' c2' : conn) : Prop := r_datagram (l_core (c_out c1')) = r_datagram (l_core (c_out c1)) /\
  exists n1 n2, l_out (c_out c1') = l_out (c_out c1) ++ n1 /\ l_out (c_out c2') = l_out (c_out c2) ++ n2 /\ Forall2 (same_outside (r_datagram (l_core (c_out c1)))) n1 n2.
Lemma more_refl c1 c2 : more c1 c2 c1 c2.
Proof. split; [reflexivity|]. exists [], []. rewrite !app_nil_r. repeat split. constructor. Qed.
Lemma more_trans a b a1 b1 a2 b2 : more a b a1 b1 -> more a1 b1 a2 b2 -> more a b a2 b2.
Proof.
  intros (D & n1 & n2 & O1 & O2 & F) (D' & m1 & m2 & P1 & P2 & F'). split; [congruence|]. exists (n1 ++ m1), (n2 ++ m2). rewrite P1, P2, O1, O2, !app_assoc. split; [reflexivity|]. split; [reflexivity|].
  apply Forall2_app; [exact F|]. rewrite <- D. exact F'.
Qed.
Lemma write_loop_alike k fuel : lengthens k -> forall c1 c2 b1 b2 sent c1' c2' r1 r2, alike k c1 c2 -> List.length b1 = List.length b2 ->
  write_loop fuel c1 b1 sent = (c1', r1) -> write_loop fuel c2 b2 sent = (c2', r2) -> r1 = r2 /\ alike k c1' c2' /\ more c1 c2 c1' c2'.
Proof.
  intros Ln. induction fuel as [|fuel IH]; intros c1 c2 b1 b2 sent c1' c2' r1 r2 Al Lb W1 W2; (destruct b1 as [|x1 b1], b2 as [|x2 b2]; try discriminate Lb; [injection W1 as <- <-; injection W2 as <- <-; split; [reflexivity|split; [exact Al|apply more_refl]]|]).
  { injection W1 as <- <-. injection W2 as <- <-. split; [reflexivity|split; [exact Al|apply more_refl]]. }
  cbn [write_loop] in W1, W2. rewrite <- Lb in W2. set (n := Nat.min (N.to_nat maxFragmentLen) (List.length (x1 :: b1))) in *. set (B1 := x1 :: b1) in *. set (B2 := x2 :: b2) in *.
  destruct (writeRecord (c_out c1) _) as [m1 q1] eqn:A1. destruct (writeRecord (c_out c2) _) as [m2 q2] eqn:A2. destruct Al as (Ic & Cl & Co & Ka).
  assert (padded_length (mkPt rtApplicationData 0 0 (firstn n B1), 0%nat) = padded_length (mkPt rtApplicationData 0 0 (firstn n B2), 0%nat)) as Pl by (unfold padded_length; cbn [fst snd p_fragment]; rewrite !firstn_length; change (list byte) with bytes in *; lia).
  destruct (padded_same _ _ _ _ _ _ _ _ _ _ _ Ln Co Ka Pl A1 A2) as (<- & Cm & Km & Dm & n1 & n2 & O1 & O2 & F).
  assert (alike k (upd_out c1 m1) (upd_out c2 m2)) as Al' by (split; [exact Ic|split; [exact Cl|split; [exact Cm|exact Km]]]).
  assert (more c1 c2 (upd_out c1 m1) (upd_out c2 m2)) as Mo by (split; [exact Dm|exists n1, n2; auto]).
  destruct q1 as [[]|e| |]; try (injection W1 as <- <-; injection W2 as <- <-; split; [reflexivity|split; [exact Al'|exact Mo]]).
  assert (List.length (skipn n B1) = List.length (skipn n B2)) as Ls by (rewrite !skipn_length; change (list byte) with bytes in *; lia).
  destruct (IH _ _ _ _ _ _ _ _ _ Al' Ls W1 W2) as (E & Al'' & Mo'). split; [exact E|]. split; [exact Al''|]. eapply more_trans; eassumption.
Qed.
Lemma write_alike k c1 c2 b1 b2 c1' c2' r1 r2 : lengthens k -> alike k c1 c2 -> List.length b1 = List.length b2 -> write c1 b1 = (c1', r1) -> write c2 b2 = (c2', r2) ->
  r1 = r2 /\ alike k c1' c2' /\ more c1 c2 c1' c2'.
Proof.
  intros Ln Al Lb. unfold write, writable. pose proof Al as (Ic & Cl & Co & _). rewrite <- Ic, <- Cl, <- Co, <- Lb. destruct (negb _).
  - intros W1 W2. injection W1 as <- <-. injection W2 as <- <-. split; [reflexivity|split; [exact Al|apply more_refl]].
  - now apply write_loop_alike.
Qed.
Lemma writes_alike k bs1 : lengthens k -> forall bs2 c1 c2 c1' c2' r1 r2, alike k c1 c2 -> map (@List.length byte) bs1 = map (@List.length byte) bs2 -> writes c1 bs1 = (c1', r1) -> writes c2 bs2 = (c2', r2) ->
  r1 = r2 /\ alike k c1' c2' /\ more c1 c2 c1' c2'.
Proof.
  intros Ln. induction bs1 as [|b1 bs1 IH]; intros [|b2 bs2] c1 c2 c1' c2' r1 r2 Al Lb W1 W2; try discriminate Lb.
  - injection W1 as <- <-. injection W2 as <- <-. split; [reflexivity|split; [exact Al|apply more_refl]].
  - cbn [map] in Lb. injection Lb as Lh Lt. cbn [writes] in W1, W2. destruct (write c1 b1) as [m1 q1] eqn:A1. destruct (write c2 b2) as [m2 q2] eqn:A2.
    destruct (writes m1 bs1) as [k1 p1] eqn:B1. destruct (writes m2 bs2) as [k2 p2] eqn:B2. injection W1 as <- <-. injection W2 as <- <-.
    destruct (write_alike _ _ _ _ _ _ _ _ _ Ln Al Lh A1 A2) as (<- & Al' & Mo). destruct (IH _ _ _ _ _ _ _ Al' Lt B1 B2) as (<- & Al'' & Mo').
    split; [reflexivity|]. split; [exact Al''|]. eapply more_trans; eassumption.
Qed.
Lemma writes_hide k c bs1 bs2 c1 c2 r1 r2 : lengthens k -> c_aead (cur (l_core (c_out c))) = Some k -> map (@List.length byte) bs1 = map (@List.length byte) bs2 -> writes c bs1 = (c1, r1) -> writes c bs2 = (c2, r2) ->
  r1 = r2 /\ l_core (c_out c1) = l_core (c_out c2) /\
  exists n1 n2, l_out (c_out c1) = l_out (c_out c) ++ n1 /\ l_out (c_out c2) = l_out (c_out c) ++ n2 /\ Forall2 (same_outside (r_datagram (l_core (c_out c)))) n1 n2.
Proof.
  intros Ln Ka Lb W1 W2. destruct (writes_alike k bs1 Ln bs2 c c c1 c2 r1 r2) as (E & (_ & _ & Co & _) & _ & Mo); auto. split; [reflexivity|]. split; [reflexivity|]. split; [reflexivity|exact Ka].
Qed.
(** Data of the same lengths, given to [Write]: *)
Theorem C73_write : forall k c bs1 bs2 c1 c2 r1 r2, lengthens k -> c_aead (cur (l_core (c_out c))) = Some k -> map (@List.length byte) bs1 = map (@List.length byte) bs2 -> writes c bs1 = (c1, r1) -> writes c bs2 = (c2, r2) ->
  r1 = r2 /\ l_core (c_out c1) = l_core (c_out c2) /\
  exists n1 n2, l_out (c_out c1) = l_out (c_out c) ++ n1 /\ l_out (c_out c2) = l_out (c_out c) ++ n2 /\ Forall2 (same_outside (r_datagram (l_core (c_out c)))) n1 n2.
Proof. exact writes_hide. Qed.
Print Assumptions C73_write.

(** A short handshake fragment and an alert, both padded, beside application data; all are sent, in records of which the first two are 5 + 5 + 1 + 13 bytes long. *)
Example C73_padding_case : let l := c_out (n_client race_net) in
  let ps1 := [(mkPt rtHandshake 0 0 (str "a"), 4%nat); (mkPt rtAlert 0 0 (str "bc"), 3%nat)] in let ps2 := [(mkPt rtApplicationData 0 0 (str "hello"), 0%nat); (mkPt rtApplicationData 0 0 (str "worl"), 1%nat)] in
  (exists k, c_aead (cur (l_core l)) = Some k /\ lengthens k) /\ map padded_length ps1 = map padded_length ps2 /\ snd (write_padded l ps1) = [Ok tt; Ok tt] /\
  map (@List.length byte) (l_out (fst (write_padded l ps1))) = [24; 24]%nat /\ l_out (fst (write_padded l ps1)) <> l_out (fst (write_padded l ps2)).
Proof.
  cbv zeta. split; [exists (shown x00); split; [nf|exact (proj2 (shown_ok x00))]|]. split; [nf|]. split; [nf|]. split; [nf|].
  intros H. apply (f_equal (map (fun b => nth 17 b x00))) in H. vm_compute in H. discriminate H.
Qed.
(** The same for [Write]. *)
Example C73_write_case : let c := n_client race_net in let bs1 := [str "hello"; str "x"] in let bs2 := [str "world"; str "y"] in
  (exists k, c_aead (cur (l_core (c_out c))) = Some k /\ lengthens k) /\ map (@List.length byte) bs1 = map (@List.length byte) bs2 /\ snd (writes c bs1) = [(5%nat, Ok tt); (1%nat, Ok tt)] /\
  map (firstn 5) (l_out (c_out (fst (writes c bs2)))) = [[x17; x03; x03; x00; x13]; [x17; x03; x03; x00; x0f]].
Proof. cbv zeta. split; [exists (shown x00); split; [nf|exact (proj2 (shown_ok x00))]|]. split; [nf|]. split; nf. Qed.
