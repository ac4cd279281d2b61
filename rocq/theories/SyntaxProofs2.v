(** Further proofs about the [syntax] codec: prefixes, limits, order independence, panics,
    termination, canonicity. *)
From Verif Require Import Base Syntax SyntaxSpec SyntaxVarint SyntaxProofs.
From Coq Require Import Permutation.

(** ** Reads consume a prefix (C02) *)

Definition reads_prefix (dec : bytes -> res (val * nat * bytes)) :=
  forall d v r rest, dec d = Ok (v, r, rest) -> exists pre, d = pre ++ rest /\ List.length pre = r.

Lemma dec_n_prefix dec n d l r rest :
  reads_prefix dec -> dec_n dec n d = Ok (l, r, rest) -> exists pre, d = pre ++ rest /\ List.length pre = r.
Proof.
  intros Hd. revert d l r rest. induction n as [|n IH]; simpl; intros d l r rest H.
  - inv_ok H. exists []; auto.
  - inv_bind H as [[v1 r1] d1] H1. inv_bind H as [[l2 r2] d2] H2. inv_ok H.
    apply Hd in H1. destruct H1 as (p1 & -> & <-). apply IH in H2. destruct H2 as (p2 & -> & <-).
    exists (p1 ++ p2). rewrite app_assoc, app_length. auto.
Qed.

Lemma dec_many_read {A} (dec : bytes -> res (A * nat * bytes)) n d l r :
  (forall d v r rest, dec d = Ok (v, r, rest) -> exists pre, d = pre ++ rest /\ List.length pre = r) ->
  dec_many dec n d = Ok (l, r) -> r = List.length d.
Proof.
  intros Hd. revert d l r. induction n as [|n IH]; intros d l r H; (destruct d as [|b d]; [simpl in H; inv_ok H; auto|]).
  - discriminate.
  - rewrite dec_many_step in H by discriminate.
    inv_bind H as [[v1 r1] d1] H1. inv_bind H as [l2 r2] H2. inv_ok H.
    apply Hd in H1. destruct H1 as (p1 & E & <-). apply IH in H2. subst r2. rewrite E, app_length. auto.
Qed.

Lemma decode_read :
  (forall t o fuel, reads_prefix (decode fuel t o)) /\
  (forall fs fuel d l r rest, decode_fields fuel fs d = Ok (l, r, rest) -> exists pre, d = pre ++ rest /\ List.length pre = r).
Proof.
  unfold reads_prefix. apply ty_fields_ind; simpl.
  - intros s o fuel d v r rest H. destruct (varint o).
    + inv_bind H as [[l u] d1] H1. destruct (_ <? _)%nat; [discriminate|]. inv_ok H.
      apply readVarint_prefix in H1. destruct H1 as (pre & E & El & _). eauto.
    + destruct (List.length (firstn (usz s) d) =? usz s)%nat eqn:E; [|discriminate]. simpl in H. inv_ok H.
      exists (firstn (usz s) d). rewrite firstn_skipn. auto.
  - intros n t IH o fuel d v r rest H. inv_bind H as [[l r1] d1] H1. inv_ok H.
    eapply dec_n_prefix; [|eauto]. exact (IH o fuel).
  - intros t IH o fuel d v r rest H. inv_bind H as [[rd L] d1] H1. inv_bind H as [ed d2] H2.
    inv_bind H as [l r1] H3. inv_ok H.
    apply decodeLength_prefix in H1. destruct H1 as (pre & -> & <- & _).
    apply takeElems_Ok in H2. destruct H2 as [-> _].
    apply dec_many_read in H3; [|apply IH]. subst r1.
    exists (pre ++ ed). rewrite app_assoc, app_length. auto.
  - intros fs IH o fuel d v r rest H. inv_bind H as [[l r1] d1] H1. inv_ok H. eauto.
  - intros k IHk e IHe o fuel d v r rest H. inv_bind H as [[rd L] d1] H1. inv_bind H as [ed d2] H2.
    inv_bind H as [l r1] H3. inv_ok H.
    apply decodeLength_prefix in H1. destruct H1 as (pre & -> & <- & _).
    apply takeElems_Ok in H2. destruct H2 as [-> _].
    apply dec_many_read in H3.
    2:{ unfold dec_pair. intros d0 v0 r0 rest0 H0. inv_bind H0 as [[k1 rk] dk] Hk. inv_bind H0 as [[e1 re] de] He. inv_ok H0.
        apply IHk in Hk. apply IHe in He. destruct Hk as (p1 & -> & <-). destruct He as (p2 & -> & <-).
        exists (p1 ++ p2). rewrite app_assoc, app_length. auto. }
    subst r1. exists (pre ++ ed). rewrite app_assoc, app_length. auto.
  - intros t IH o fuel d v r rest H. destruct (optional o).
    + destruct d as [|b d]; [discriminate|]. destruct (bN b =? 0).
      * inv_ok H. exists [b]; auto.
      * destruct (bN b =? 1); [|discriminate]. inv_bind H as [[v1 r1] d1] H1. inv_ok H.
        apply IH in H1. destruct H1 as (pre & -> & <-). exists (b :: pre); auto.
    + inv_bind H as [[v1 r1] d1] H1. inv_ok H. eauto.
  - intros p t IH o fuel d v r rest H. inv_bind H as [[v1 r1] d1] H1. destruct (p v1); [|discriminate]. inv_ok H. eauto.
  - intros z e dc o fuel d v r rest H. destruct (dc d) as [[v1 r1]|]; [|discriminate].
    destruct (Nat.ltb_spec (List.length d) r1); [discriminate|]. inv_ok H.
    exists (firstn r d). rewrite firstn_skipn, firstn_length_le by lia. auto.
  - intros fuel d l r rest H. inv_ok H. exists []; auto.
  - intros o t IHt fs IHf fuel d l r rest H. inv_bind H as [[v1 r1] d1] H1. inv_bind H as [[l2 r2] d2] H2. inv_ok H.
    apply IHf in H2. destruct H2 as (p2 & -> & <-). destruct (omit o).
    + inv_ok H1. exists p2; auto.
    + apply IHt in H1. destruct H1 as (p1 & -> & <-). exists (p1 ++ p2). rewrite app_assoc, app_length; auto.
Qed.

Definition determined (dec : bytes -> res (val * nat * bytes)) :=
  forall pre rest v tail, dec (pre ++ rest) = Ok (v, List.length pre, rest) -> dec (pre ++ tail) = Ok (v, List.length pre, tail).

Lemma app_same_rest {A} (a b r : list A) : a ++ r = b ++ r -> a = b.
Proof. apply app_inv_tail. Qed.

Lemma determined_alt dec d v r rest :
  reads_prefix dec -> determined dec -> dec d = Ok (v, r, rest) ->
  exists pre, d = pre ++ rest /\ List.length pre = r /\ forall tail, dec (pre ++ tail) = Ok (v, r, tail).
Proof.
  intros R D H. destruct (R _ _ _ _ H) as (pre & -> & <-). exists pre. repeat split; auto.
  intros tail. eapply D; eauto.
Qed.

Lemma dec_n_determined dec n pre rest l tail :
  reads_prefix dec -> determined dec ->
  dec_n dec n (pre ++ rest) = Ok (l, List.length pre, rest) -> dec_n dec n (pre ++ tail) = Ok (l, List.length pre, tail).
Proof.
  intros R D. revert pre l. induction n as [|n IH]; simpl; intros pre l H.
  - apply Ok_inj in H. injection H as <- El Er. destruct pre; [|discriminate]. reflexivity.
  - inv_bind H as [[v1 r1] d1] H1. inv_bind H as [[l2 r2] d2] H2. inv_ok H.
    destruct (determined_alt _ _ _ _ _ R D H1) as (p1 & E1 & <- & T1).
    destruct (dec_n_prefix _ _ _ _ _ _ R H2) as (p2 & -> & <-).
    rewrite app_assoc in E1. apply app_same_rest in E1. subst pre.
    rewrite <- app_assoc, T1. cbn [bind].
    rewrite (IH _ _ H2). cbn [bind]. now rewrite app_length.
Qed.

Lemma decode_determined :
  (forall t o fuel, prefix_reader t -> delimited false t o -> determined (decode fuel t o)) /\
  (forall fs fuel pre rest l tail, prefix_reader_fields fs -> delimited_fields false fs ->
     decode_fields fuel fs (pre ++ rest) = Ok (l, List.length pre, rest) ->
     decode_fields fuel fs (pre ++ tail) = Ok (l, List.length pre, tail)).
Proof.
  unfold determined. apply ty_fields_ind; simpl.
  - intros s o fuel _ _ pre rest v tail H. destruct (varint o).
    + inv_bind H as [[l u] d1] H1. destruct (_ <? _)%nat eqn:E; [discriminate|]. inv_ok H.
      apply readVarint_prefix in H1. destruct H1 as (pre' & E' & El & _ & _ & _ & Ht).
      apply app_same_rest in E'. subst pre'. rewrite Ht. cbn [bind]. now rewrite E.
    + destruct (List.length (firstn (usz s) (pre ++ rest)) =? usz s)%nat eqn:E; [|discriminate]. simpl in H.
      apply Ok_inj in H. injection H as Ev El Er.
      apply Nat.eqb_eq in E. rewrite E in El. 
      rewrite firstn_app_n in Ev by auto. rewrite !(firstn_app_n (usz s)) by auto. rewrite skipn_app_n by auto.
      rewrite <- El, Nat.eqb_refl. simpl. now rewrite Ev.
  - intros n t IH o fuel P D pre rest v tail H. inv_bind H as [[l r1] d1] H1. inv_ok H.
    rewrite (dec_n_determined _ _ _ _ _ tail (proj1 decode_read t o fuel) (IH o fuel P D) H1). reflexivity.
  - intros t IH o fuel P [Do D] pre rest v tail H. inv_bind H as [[rd L] d1] H1. inv_bind H as [ed d2] H2.
    inv_bind H as [l r1] H3. inv_ok H.
    apply decodeLength_prefix in H1. destruct H1 as (p1 & E1 & <- & _ & Ht & _).
    apply takeElems_Ok in H2. destruct H2 as [-> ->].
    rewrite app_assoc in E1. apply app_same_rest in E1. subst pre.
    destruct (omitHeader o); [exfalso; specialize (Do eq_refl); discriminate|].
    rewrite <- app_assoc. rewrite (proj2 (Ht eq_refl)). cbn [bind]. rewrite takeElems_app. cbn [bind].
    rewrite H3. cbn [bind]. match goal with E : (_ + _)%nat = _ |- _ => rewrite E end. reflexivity.
  - intros fs IH o fuel P D pre rest v tail H. inv_bind H as [[l r1] d1] H1. inv_ok H.
    erewrite IH; eauto. reflexivity.
  - intros k _ e _ o fuel [Pk Pe] (Do & Dk & De) pre rest v tail H. inv_bind H as [[rd L] d1] H1. inv_bind H as [ed d2] H2.
    inv_bind H as [l r1] H3. inv_ok H.
    apply decodeLength_prefix in H1. destruct H1 as (p1 & E1 & <- & _ & Ht & _).
    apply takeElems_Ok in H2. destruct H2 as [-> ->].
    rewrite app_assoc in E1. apply app_same_rest in E1. subst pre.
    destruct (omitHeader o); [exfalso; specialize (Do eq_refl); discriminate|].
    rewrite <- app_assoc. rewrite (proj2 (Ht eq_refl)). cbn [bind]. rewrite takeElems_app. cbn [bind].
    rewrite H3. cbn [bind]. match goal with E : (_ + _)%nat = _ |- _ => rewrite E end. reflexivity.
  - intros t IH o fuel P D pre rest v tail H. destruct (optional o).
    + destruct pre as [|b pre]; simpl in *.
      { destruct rest as [|b rest]; [discriminate|]. destruct (bN b =? 0); [discriminate|].
        destruct (bN b =? 1); [|discriminate]. inv_bind H as [[v1 r1] d1] H1. inv_ok H. discriminate. }
      destruct (bN b =? 0).
      * apply Ok_inj in H. injection H as <- El Er. destruct pre; [|discriminate]. reflexivity.
      * destruct (bN b =? 1); [|discriminate]. inv_bind H as [[v1 r1] d1] H1. inv_ok H.
        erewrite IH; eauto. reflexivity.
    + inv_bind H as [[v1 r1] d1] H1. inv_ok H. erewrite IH; eauto. reflexivity.
  - intros p t IH o fuel P D pre rest v tail H. inv_bind H as [[v1 r1] d1] H1. destruct (p v1) eqn:Hp; [|discriminate]. inv_ok H.
    erewrite IH; eauto. cbn [bind]. now rewrite Hp.
  - intros z e dc o fuel P _ pre rest v tail H. destruct (dc (pre ++ rest)) as [[v1 r1]|] eqn:E; [|discriminate].
    destruct (Nat.ltb_spec (List.length (pre ++ rest)) r1); [discriminate|].
    apply Ok_inj in H. injection H as -> -> Er.
    apply (P _ _ _ tail) in E; auto. rewrite firstn_app_len in E. rewrite E.
    destruct (Nat.ltb_spec (List.length (pre ++ tail)) (List.length pre)) as [Hx|_]; [rewrite app_length in Hx; lia|].
    now rewrite skipn_app_len.
  - intros fuel pre rest l tail _ _ H. apply Ok_inj in H. injection H as <- El Er. destruct pre; [|discriminate]. reflexivity.
  - intros o t IHt fs IHf fuel pre rest l tail [Pt Pf] [Dt Df] H. inv_bind H as [[v1 r1] d1] H1. inv_bind H as [[l2 r2] d2] H2. inv_ok H.
    destruct (proj2 decode_read _ _ _ _ _ _ H2) as (p2 & -> & <-).
    destruct (omit o).
    + apply Ok_inj in H1. injection H1 as <- <- E1. apply app_same_rest in E1. subst pre. cbn [bind].
      erewrite IHf; eauto. reflexivity.
    + destruct (proj1 decode_read _ _ _ _ _ _ _ H1) as (p1 & E1 & <-).
      rewrite app_assoc in E1. apply app_same_rest in E1. subst pre. rewrite <- app_assoc in *.
      erewrite IHt; eauto. cbn [bind]. erewrite IHf; eauto. cbn [bind]. now rewrite app_length.
Qed.

(** ** Encodable values and sizes (C03) *)

Lemma enc_all_Forall2 enc l b :
  enc_all enc l = Ok b <-> exists bs, Forall2 (fun v c => enc v = Ok c) l bs /\ b = concat bs.
Proof.
  revert b. induction l as [|v l IH]; simpl; intros b.
  - split.
    + intros H. inv_ok H. exists []; auto.
    + intros (bs & H & ->). inversion H. reflexivity.
  - split.
    + intros H. inv_bind H as b1 H1. inv_bind H as b2 H2. inv_ok H. apply IH in H2.
      destruct H2 as (bs & H2 & ->). exists (b1 :: bs). split; auto.
    + intros (bs & H & ->). inversion H as [|? c ? bs' H1 H2]; subst. rewrite H1. cbn [bind].
      assert (E : enc_all enc l = Ok (concat bs')) by (apply IH; eauto). rewrite E. reflexivity.
Qed.

Lemma wire_sum t o l bs :
  (forall v b, encode t o v = Ok b -> len b = wire_size t o v) ->
  Forall2 (fun v c => encode t o v = Ok c) l bs -> len (concat bs) = sumN (map (wire_size t o) l).
Proof.
  intros K. induction 1 as [|v c l bs H _ IH]; simpl; auto. rewrite len_app, IH. f_equal. auto.
Qed.

Lemma wire_sum_pairs k e l ps :
  (forall v b, encode k null_opts v = Ok b -> len b = wire_size k null_opts v) ->
  (forall v b, encode e null_opts v = Ok b -> len b = wire_size e null_opts v) ->
  Forall2 (fun p q => encode k null_opts (fst p) = Ok (fst q) /\ encode e null_opts (snd p) = Ok (snd q)) l ps ->
  len (flat_pairs ps) = sumN (map (fun p => wire_size k null_opts (fst p) + wire_size e null_opts (snd p)) l).
Proof.
  intros Kk Ke. induction 1 as [|p q l ps [H1 H2] _ IH]; simpl; auto.
  unfold flat_pairs in *. simpl. apply Kk in H1. apply Ke in H2. rewrite <- H1, <- H2, !len_app, IH. reflexivity.
Qed.

Lemma encode_wire_size :
  (forall t o v b, encode t o v = Ok b -> len b = wire_size t o v) /\
  (forall fs l b, encode_fields fs l = Ok b -> len b = wire_sizes fs l).
Proof.
  apply ty_fields_ind; simpl.
  - intros s o v b H. destruct v; try discriminate. destruct (_ <? _); [|discriminate]. destruct (varint o).
    + now apply writeVarint_len.
    + inv_ok H. apply len_be.
  - intros n t IH o v b H. destruct v; try discriminate. destruct (_ =? _)%nat; [|discriminate].
    apply enc_all_Forall2 in H. destruct H as (bs & H & ->). eapply wire_sum; eauto.
  - intros t IH o v b H. destruct v; try discriminate. inv_bind H as body Hb. inv_bind H as h Hh. inv_ok H.
    apply enc_all_Forall2 in Hb. destruct Hb as (bs & Hb & ->). apply wire_sum in Hb; eauto.
    apply encodeLength_within in Hh. destruct Hh as [_ Hh]. rewrite len_app, Hh, Hb. reflexivity.
  - intros fs IH o v b H. destruct v; try discriminate. auto.
  - intros k IHk e IHe o v b H. destruct v; try discriminate. destruct (keys_nodup l); [|discriminate].
    inv_bind H as ps Hps. inv_bind H as h Hh. inv_ok H.
    apply enc_pairs_Forall2 in Hps.
    apply wire_sum_pairs in Hps; eauto. rewrite (flat_pairs_perm_len _ _ (sort_pairs_perm ps)) in Hps.
    apply encodeLength_within in Hh. destruct Hh as [_ Hh]. rewrite len_app, Hh, Hps. reflexivity.
  - intros t IH o v b H. destruct v; try discriminate.
    + destruct (optional o); [|discriminate]. inv_ok H. reflexivity.
    + inv_bind H as b1 H1. inv_ok H. rewrite len_app, (IH _ _ _ H1). destruct (optional o); reflexivity.
  - intros p t IH o v b H. destruct (p v); [|discriminate]. auto.
  - intros z e d o v b H. destruct (e v); [|discriminate]. inv_ok H. auto.
  - intros l b H. destruct l; [|discriminate]. inv_ok H. auto.
  - intros o t IHt fs IHf l b H. destruct l as [|v l]; [discriminate|]. destruct (omit o).
    + rewrite (IHf _ _ H). lia.
    + inv_bind H as b1 H1. inv_bind H as b2 H2. inv_ok H. rewrite len_app, (IHt _ _ _ H1), (IHf _ _ H2). auto.
Qed.

Lemma encode_iff_encodable :
  (forall t o v, (exists b, encode t o v = Ok b) <-> encodable t o v) /\
  (forall fs l, (exists b, encode_fields fs l = Ok b) <-> encodable_fields fs l).
Proof.
  assert (KL : forall t o l, (forall v, (exists b, encode t o v = Ok b) <-> encodable t o v) ->
            ((exists b, enc_all (encode t o) l = Ok b) <-> Forall (encodable t o) l)).
  { intros t o l IH. induction l as [|v l IHl]; simpl.
    - split; eauto.
    - split.
      + intros (b & H). inv_bind H as b1 H1. inv_bind H as b2 H2. constructor; [apply IH | apply IHl]; eauto.
      + intros H. inversion H; subst. apply IH in H2. apply IHl in H3. destruct H2 as (b1 & ->). destruct H3 as (b2 & ->).
        simpl; eauto. }
  apply ty_fields_ind; simpl.
  - intros s o v. destruct v; try (split; [intros (b & H); discriminate | intros []]).
    destruct (N.ltb_spec n (256 ^ N.of_nat (usz s))) as [Hn|Hn].
    + destruct (varint o).
      * split.
        -- intros (b & H). apply writeVarint_spec in H. destruct H; auto.
        -- intros [_ H]. apply writeVarint_Ok. auto.
      * split; [intros _; split; auto; discriminate | eauto].
    + split; [intros (b & H); discriminate | lia].
  - intros n t IH o v. destruct v; try (split; [intros (b & H); discriminate | intros []]).
    destruct (Nat.eqb_spec (List.length l) n) as [Hn|Hn].
    + rewrite KL by auto. tauto.
    + split; [intros (b & H); discriminate | tauto].
  - intros t IH o v. destruct v; try (split; [intros (b & H); discriminate | intros []]).
    split.
    + intros (b & H). inv_bind H as body Hb. inv_bind H as h Hh. split; [|apply KL; eauto].
      apply enc_all_Forall2 in Hb. destruct Hb as (bs & Hb & ->). apply wire_sum in Hb; [|apply encode_wire_size].
      rewrite <- Hb. eapply encodeLength_within; eauto.
    + intros [Hw Hf]. apply KL in Hf; auto. destruct Hf as (body & Hf). rewrite Hf. cbn [bind].
      apply enc_all_Forall2 in Hf. destruct Hf as (bs & Hf & ->). apply wire_sum in Hf; [|apply encode_wire_size].
      rewrite <- Hf in Hw. apply within_encodeLength in Hw. destruct Hw as (h & ->). simpl; eauto.
  - intros fs IH o v. destruct v; try (split; [intros (b & H); discriminate | intros []]). auto.
  - intros k IHk e IHe o v. destruct v; try (split; [intros (b & H); discriminate | intros []]).
    assert (KP : (exists ps, enc_pairs (encode k null_opts) (encode e null_opts) l = Ok ps) <->
                 Forall (fun p => encodable k null_opts (fst p) /\ encodable e null_opts (snd p)) l).
    { clear - IHk IHe. induction l as [|[kv ev] l IHl]; simpl.
      - split; eauto.
      - split.
        + intros (b & H). inv_bind H as b1 H1. inv_bind H as b2 H2. inv_bind H as b3 H3.
          constructor; simpl; [split; [apply IHk | apply IHe] | apply IHl]; eauto.
        + intros H. inversion H as [|? ? [Ha Hb] Hc]; subst. simpl in *. apply IHk in Ha. apply IHe in Hb. apply IHl in Hc.
          destruct Ha as (b1 & ->). destruct Hb as (b2 & ->). destruct Hc as (b3 & ->). simpl; eauto. }
    destruct (keys_nodup l) eqn:Hk.
    + apply keys_nodup_spec in Hk. split.
      * intros (b & H). inv_bind H as ps Hps. inv_bind H as h Hh. split; [auto|split; [|apply KP; eauto]].
        apply enc_pairs_Forall2 in Hps. apply wire_sum_pairs in Hps; [|apply encode_wire_size..].
        rewrite (flat_pairs_perm_len _ _ (sort_pairs_perm ps)) in Hps. rewrite <- Hps. eapply encodeLength_within; eauto.
      * intros (_ & Hw & Hf). apply KP in Hf. destruct Hf as (ps & Hf). rewrite Hf. cbn [bind].
        apply enc_pairs_Forall2 in Hf. apply wire_sum_pairs in Hf; [|apply encode_wire_size..].
        rewrite (flat_pairs_perm_len _ _ (sort_pairs_perm ps)) in Hf. rewrite <- Hf in Hw.
        apply within_encodeLength in Hw. destruct Hw as (h & ->). simpl; eauto.
    + split; [intros (b & H); discriminate|]. intros (H & _). apply keys_nodup_spec in H. congruence.
  - intros t IH o v. destruct v; try (split; [intros (b & H); discriminate | intros []]).
    + destruct (optional o); [split; eauto | split; [intros (b & H); discriminate | discriminate]].
    + rewrite <- IH. split.
      * intros (b & H). inv_bind H as b1 H1. eauto.
      * intros (b & ->). simpl; eauto.
  - intros p t IH o v. destruct (p v); [rewrite IH; tauto|]. split; [intros (b & H); discriminate | intros [H _]; discriminate].
  - intros z e d o v. destruct (e v); [split; [congruence|eauto] | split; [intros (b & H); discriminate|congruence]].
  - intros l. destruct l; [split; eauto | split; [intros (b & H); discriminate | intros []]].
  - intros o t IHt fs IHf l. destruct l as [|v l]; [split; [intros (b & H); discriminate | intros []]|].
    destruct (omit o).
    + rewrite IHf. split; [intros; split; auto; discriminate | tauto].
    + split.
      * intros (b & H). inv_bind H as b1 H1. inv_bind H as b2 H2. split; [intros _; apply IHt | apply IHf]; eauto.
      * intros [H1 H2]. apply IHt in H1; auto. apply IHf in H2. destruct H1 as (b1 & ->). destruct H2 as (b2 & ->). simpl; eauto.
Qed.

Definition only_err {A} (r : res A) := r <> Panic /\ r <> Fuel.

Lemma only_err_bind {A B} (x : res A) (f : A -> res B) :
  only_err x -> (forall a, x = Ok a -> only_err (f a)) -> only_err (bind x f).
Proof. intros [H1 H2] H. destruct x; simpl; auto; split; congruence. Qed.
Lemma only_err_Ok {A} (a : A) : only_err (Ok a). Proof. split; discriminate. Qed.
Lemma only_err_Err {A} e : only_err (@Err A e). Proof. split; discriminate. Qed.
#[export] Hint Resolve only_err_bind only_err_Ok only_err_Err : onlyerr.

Ltac oe := repeat first [solve [auto with onlyerr] | apply only_err_bind | progress intros].

Lemma encodeLength_only_err n o : only_err (encodeLength n o).
Proof.
  assert (W : forall u, only_err (writeVarint u)).
  { intros u. unfold writeVarint. destruct (0 <? _); auto with onlyerr.
    destruct (if u <? 2 ^ (8 * 1 - 2) then _ else _). auto with onlyerr. }
  unfold encodeLength. destruct (_ && _)%bool; auto with onlyerr. destruct (_ <? _)%Z; auto with onlyerr.
  destruct (omitHeader o); auto with onlyerr. destruct (varintHeader o); auto.
  destruct (0 <? headerSize o)%Z; auto with onlyerr. destruct (0 <? _)%Z; auto with onlyerr.
Qed.

Lemma encode_only_err :
  (forall t o v, only_err (encode t o v)) /\ (forall fs l, only_err (encode_fields fs l)).
Proof.
  assert (W : forall u, only_err (writeVarint u)).
  { intros u. unfold writeVarint. destruct (0 <? _); auto with onlyerr.
    destruct (if u <? 2 ^ (8 * 1 - 2) then _ else _). auto with onlyerr. }
  apply ty_fields_ind; simpl; unfold ill.
  - intros s o v. destruct v; oe. destruct (_ <? _); oe. destruct (varint o); oe.
  - intros n t IH o v. destruct v; oe. destruct (_ =? _)%nat; oe. clear n. induction l; simpl; oe.
  - intros t IH o v. destruct v; oe; auto using encodeLength_only_err. induction l; simpl; oe.
  - intros fs IH o v. destruct v; oe.
  - intros k IHk e IHe o v. destruct v; oe. destruct (keys_nodup l); oe; auto using encodeLength_only_err.
    induction l as [|[a b] l IHl]; simpl; oe.
  - intros t IH o v. destruct v; oe. destruct (optional o); oe.
  - intros p t IH o v. destruct (p v); oe.
  - intros z e d o v. destruct (e v); oe.
  - intros l. destruct l; oe.
  - intros o t IHt fs IHf l. destruct l; oe. destruct (omit o); oe.
Qed.
