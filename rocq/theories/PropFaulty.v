(** Property C76: what a connection that fails does to the records written to it. *)
From Verif Require Import Base Frame Record RecordSpec Crypto Messages Negotiation Machine Conn ConnSpec Toy PropConn Faulty FaultySpec.

Lemma over_working l pt : writeRecordOver Accepts l pt = writeRecord l pt.
Proof. unfold writeRecordOver, writeRecord, writeRecordWithPadding. destruct (protect _ _ _ _) as [[record c']|e| |]; reflexivity. Qed.
Lemma loop_working fuel : forall c b sent, write_loop_over fuel [] c b sent = write_loop fuel c b sent.
Proof.
  induction fuel as [|fuel IH]; intros c b sent; destruct b as [|x b]; try reflexivity. cbn [write_loop_over write_loop hd tl]. rewrite over_working. destruct (writeRecord _ _) as [l [[]|e| |]]; try reflexivity. apply IH.
Qed.
Lemma working c b : writeOver [] c b = write c b.
Proof. unfold writeOver, write. destruct (negb _); [reflexivity|apply loop_working]. Qed.

Lemma over_cases f l pt l' r : writeRecordOver f l pt = (l', r) ->
  (writeRecord l pt = (l', Ok tt) /\ r = Ok tt) \/ (r <> Ok tt /\ exists tail, l_out l' = l_out l ++ tail /\ (tail = [] \/ exists part whole l2, tail = [part] /\ cut_from part whole /\ writeRecord l pt = (l2, Ok tt) /\ l_out l2 = l_out l ++ [whole])).
Proof.
  unfold writeRecordOver, writeRecord, writeRecordWithPadding. destruct (protect _ _ _ _) as [[record c']|e| |].
  - destruct f as [|n]; cbn [put]; intros H; injection H as <- <-; [left; auto|right]. split; [discriminate|]. eexists. split; [reflexivity|]. right. exists (firstn n record), record. eexists. split; [reflexivity|]. split; [exists (skipn n record); now rewrite firstn_skipn|]. split; reflexivity.
  - intros H; injection H as <- <-. right. split; [discriminate|]. exists []. rewrite app_nil_r. cbn. auto.
  - intros H; injection H as <- <-. right. split; [discriminate|]. exists []. rewrite app_nil_r. cbn. auto.
  - intros H; injection H as <- <-. right. split; [discriminate|]. exists []. rewrite app_nil_r. cbn. auto.
Qed.
Lemma skipn_twice A k m : forall b : list A, skipn m (skipn k b) = skipn (k + m) b.
Proof. induction k; intros b; [reflexivity|]. destruct b; cbn [skipn Nat.add]; [destruct m; reflexivity|apply IHk]. Qed.
Lemma loop_reported fuel : forall fs c b sent c' n r, (List.length b <= fuel)%nat -> write_loop_over fuel fs c b sent = (c', (n, r)) ->
  exists m, n = (sent + m)%nat /\ (m <= List.length b)%nat /\ (r = Ok tt -> m = List.length b) /\
  exists c1 tail, (forall fuel', (m <= fuel')%nat -> write_loop fuel' c (firstn m b) sent = (c1, (n, Ok tt))) /\ l_out (c_out c') = l_out (c_out c1) ++ tail /\ rest_of (c_out c1) (skipn m b) tail /\ (r = Ok tt -> tail = []).
Proof.
  assert (0 < N.to_nat maxFragmentLen)%nat as Mp by (assert (0 < maxFragmentLen) by reflexivity; lia).
  assert (forall c b sent r tail c', (r = Ok tt -> tail = []) -> rest_of (c_out c) b tail -> l_out (c_out c') = l_out (c_out c) ++ tail ->
    exists c1 tail, (forall fuel', (0 <= fuel')%nat -> write_loop fuel' c [] sent = (c1, (sent, Ok tt))) /\ l_out (c_out c') = l_out (c_out c1) ++ tail /\ rest_of (c_out c1) b tail /\ (r = Ok tt -> tail = []))%nat as Stop.
  { intros c b sent r tail c' A B C. exists c, tail. split; [|auto]. intros fuel' _. destruct fuel'; reflexivity. }
  induction fuel as [|fuel IH]; intros fs c b sent c' n r Hf H.
  - destruct b; [|cbn in Hf; lia]. cbn [write_loop_over] in H. injection H as <- <- <-. exists 0%nat. rewrite Nat.add_0_r. split; [reflexivity|]. split; [auto|]. split; [auto|]. cbn [firstn skipn]. apply (Stop c _ sent (Ok tt) [] c); [auto|left; reflexivity|now rewrite app_nil_r].
  - destruct b as [|x b].
    { cbn [write_loop_over] in H. injection H as <- <- <-. exists 0%nat. rewrite Nat.add_0_r. split; [reflexivity|]. split; [auto|]. split; [auto|]. cbn [firstn skipn]. apply (Stop c _ sent (Ok tt) [] c); [auto|left; reflexivity|now rewrite app_nil_r]. }
    cbn [write_loop_over] in H. set (B := x :: b) in *. set (M := N.to_nat maxFragmentLen) in *. set (k := Nat.min M (List.length B)) in *.
    assert (1 <= k)%nat as K1 by (unfold k, B; cbn [List.length]; lia). assert (k <= List.length B)%nat as K2 by (unfold k; lia).
    destruct (writeRecordOver _ _ _) as [l r1] eqn:W. destruct (over_cases _ _ _ _ _ W) as [[W1 ->]|[Nr (tail & Ho & Lt)]].
    + apply IH in H; [|rewrite skipn_length; lia]. destruct H as (m & -> & Lm & Om & c1 & tail & Wl & Ho & Lt & Ot). rewrite skipn_length in Lm, Om.
      exists (k + m)%nat. split; [lia|]. split; [lia|]. split; [intros E; specialize (Om E); lia|]. exists c1, tail. split; [|split; [exact Ho|]; split; [|exact Ot]; rewrite skipn_twice in Lt; exact Lt].
      intros fuel' Hf'. destruct fuel' as [|fuel']; [lia|].
      assert (firstn (k + m) B <> []) as Ne by (unfold B; destruct (k + m)%nat eqn:E; [lia|discriminate]).
      destruct (firstn (k + m) B) as [|y t] eqn:Fe; [congruence|]. cbn [write_loop]. fold M. rewrite <- Fe.
      assert (Nat.min M (List.length (firstn (k + m) B)) = k) as Mk by (rewrite firstn_length; unfold k in *; lia).
      rewrite Mk. rewrite firstn_firstn, Nat.min_l by lia. rewrite W1.
      replace (skipn k (firstn (k + m) B)) with (firstn m (skipn k B)) by (rewrite skipn_firstn_comm; f_equal; lia). apply Wl. lia.
    + assert ((upd_out c l, (sent, r1)) = (c', (n, r))) as H' by (destruct r1 as [[]|e| |]; [congruence|exact H..]). injection H' as <- <- <-.
      exists 0%nat. split; [lia|]. split; [lia|]. split; [congruence|]. cbn [firstn skipn]. apply (Stop c _ sent r1 tail (upd_out c l)); [congruence| |exact Ho]. destruct Lt as [->|(part & whole & l2 & E1 & E2 & E3 & E4)]; [left; reflexivity|]. right. exists part, whole, k, l2. auto.
Qed.
Lemma what_is_reported fs c b c' n r : writable c = true -> writeOver fs c b = (c', (n, r)) -> reported c b (l_out (c_out c')) n r.
Proof.
  intros Wr H. unfold writeOver in H. rewrite Wr in H. cbn [negb] in H. apply loop_reported in H; [|auto]. destruct H as (m & -> & Lm & Om & c1 & tail & Wl & Ho & Lt & Ot). cbn [Nat.add] in *. split; [exact Lm|]. split; [exact Om|]. exists c1, tail. split; [|auto]. unfold write. rewrite Wr. cbn [negb]. apply Wl. rewrite firstn_length. lia.
Qed.

Lemma records_like rs : forall l1 l2, l_core l1 = l_core l2 -> Forall2 cut_from (l_out l1) (l_out l2) ->
  l_core (records_over l1 rs) = l_core (records_over l2 (unbroken rs)) /\ Forall2 cut_from (l_out (records_over l1 rs)) (l_out (records_over l2 (unbroken rs))).
Proof.
  induction rs as [|[f pt] rs IH]; intros l1 l2 Hc Ho; [auto|]. cbn [records_over unbroken map snd]. apply IH; unfold writeRecordOver; rewrite Hc; destruct (protect _ _ _ _) as [[record c']|e| |]; try exact Hc; try exact Ho.
  - destruct f; reflexivity.
  - destruct f as [|n]; cbn [put fst l_out]; apply Forall2_app; try exact Ho; (constructor; [|constructor]); [exists []; now rewrite app_nil_r|exists (skipn n record); now rewrite firstn_skipn].
Qed.
Lemma cut_refl o : Forall2 cut_from o o.
Proof. induction o; constructor; [exists []; now rewrite app_nil_r|assumption]. Qed.

(** C76. Over a connection that does not fail this is the [Write] of the other theorems. *)
Theorem C76_working : forall c b, writeOver [] c b = write c b.
Proof. exact working. Qed.
Print Assumptions C76_working.
(** What [Write] reports as sent has been sent, whole and as it should be; *)
Theorem C76_reported : forall fs c b c' n r, writable c = true -> writeOver fs c b = (c', (n, r)) -> reported c b (l_out (c_out c')) n r.
Proof. exact what_is_reported. Qed.
Print Assumptions C76_reported.
(** and failures never make the layer use other keys or numbers than it would without them: what is on the wire is cut from the records of a run without failures, the nonces of which are all different (C11). *)
Theorem C76_numbers : forall l rs, l_core (records_over l rs) = l_core (records_over l (unbroken rs)) /\ Forall2 cut_from (l_out (records_over l rs)) (l_out (records_over l (unbroken rs))).
Proof. exact (fun l rs => records_like rs l l eq_refl (cut_refl (l_out l))). Qed.
Print Assumptions C76_numbers.
Definition broken : conn := fst (writeOver [Breaks 3] toy_client (str "lost")).
Definition continued : conn := fst (writeOver [] broken (str "hello")).
Lemma with_result A B (p : A * B) r : snd p = r -> p = (fst p, r).
Proof. destruct p; cbn; now intros ->. Qed.
(** Full statement: after a [Write] that failed no other reports success, for its bytes would come after a part of a record. But the code forgets the failure: the peer takes what follows for the rest of that record, and gets nothing of a [Write] that succeeded. *)
Theorem C76_stop_refuted : exists c c1 c2 e, writable c = true /\ writeOver [Breaks 3] c (str "lost") = (c1, (0%nat, Err e)) /\ writeOver [] c1 (str "hello") = (c2, (5%nat, Ok tt)) /\
  snd (read toy_env 20 (toy_oracles 700 3) (snd (transfer c2 toy_server)) 10) <> Ok (str "hello") /\
  snd (read toy_env 20 (toy_oracles 700 3) (snd (transfer (fst (write c (str "hello"))) toy_server)) 10) = Ok (str "hello").
Proof.
  exists toy_client, broken, continued, (EMsg "write"). split; [vm_compute; reflexivity|]. split; [apply with_result; vm_compute; reflexivity|]. split; [apply with_result; vm_compute; reflexivity|].
  split; [vm_compute; discriminate|vm_compute; reflexivity].
Qed.
Print Assumptions C76_stop_refuted.

(** A [Write] whose record breaks off after three bytes, on a connection that can be written to. *)
Example C76_case : writable toy_client = true /\
  let '(c, (n, r)) := writeOver [Breaks 3] toy_client (str "hello") in n = 0%nat /\ r = Err (EMsg "write") /\ map (@List.length byte) (l_out (c_out c)) = [3%nat] /\
  c_seq (cur (l_core (c_out c))) = c_seq (cur (l_core (c_out toy_client))) + 1 /\
  map (@List.length byte) (l_out (records_over (c_out c) [(Accepts, mkPt rtApplicationData 0 0 (str "hello")); (Breaks 7, mkPt rtAlert 0 0 (str "ab"))])) = [3; 12; 7]%nat.
Proof. split; vm_compute; auto. Qed.
