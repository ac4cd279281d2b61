(** Varint lemmas. *)
From Verif Require Import Base Syntax SyntaxSpec.
Ltac Zify.zify_post_hook ::= Z.div_mod_to_equations.

Lemma lor_shift_add u k t : u < 2 ^ k -> N.lor u (N.shiftl t k) = u + t * 2 ^ k.
Proof.
  intros H. rewrite N.shiftl_mul_pow2.
  assert (L : N.land u (t * 2 ^ k) = 0).
  { apply N.bits_inj. intros i. rewrite N.land_spec, N.bits_0.
    destruct (N.lt_ge_cases i k) as [Hi|Hi].
    + rewrite N.mul_pow2_bits_low by auto. apply andb_false_r.
    + destruct (N.eq_dec u 0) as [->|Hu]; [now rewrite N.bits_0|].
      rewrite (N.bits_above_log2 u); auto. apply N.log2_lt_pow2 in H; lia. }
  now rewrite N.add_nocarry_lxor, N.lxor_lor by auto.
Qed.

(** What a successful [writeVarint] produces: the first byte carries the two-bit length. *)
Definition varint_form (n two : N) (u : N) : bytes := be (N.to_nat n) (u + two * 2 ^ (8 * n - 2)).

Lemma writeVarint_spec u b :
  writeVarint u = Ok b <->
  u < 2 ^ 62 /\ exists two, two < 4 /\ varint_size u = 2 ^ two /\ u < 2 ^ (8 * 2 ^ two - 2) /\
     b = be (N.to_nat (2 ^ two)) (u + two * 2 ^ (8 * 2 ^ two - 2)).
Proof.
  unfold writeVarint, varint_size.
  assert (Hs : (0 <? N.shiftr u 62) = negb (u <? 2 ^ 62)).
  { rewrite N.shiftr_div_pow2. destruct (N.ltb_spec u (2 ^ 62)) as [H|H]; simpl negb.
    - rewrite N.div_small; auto.
    - apply N.ltb_lt. apply N.div_str_pos. split; auto. reflexivity. }
  rewrite Hs. clear Hs.
  change (2 ^ (8 * 1 - 2)) with 64. change (2 ^ (8 * 2 - 2)) with 16384.
  change (2 ^ (8 * 4 - 2)) with 1073741824.
  destruct (N.ltb_spec u (2 ^ 62)) as [H62|H62]; simpl negb; cbv iota.
  2:{ split; [discriminate|]. intros (H & _). lia. }
  assert (K : forall n two, two < 4 -> N.of_nat n = 2 ^ two -> u < 2 ^ (8 * 2 ^ two - 2) ->
    be n (N.lor u (N.shiftl two (8 * N.of_nat n - 2))) =
    be (N.to_nat (2 ^ two)) (u + two * 2 ^ (8 * 2 ^ two - 2))).
  { intros n two H4 Hn Hu. rewrite <- Hn, Nat2N.id. rewrite lor_shift_add; auto. now rewrite Hn. }
  assert (U : forall a c, 2 ^ a = 2 ^ c -> a = c).
  { intros a c Hac. apply (f_equal N.log2) in Hac. rewrite !N.log2_pow2 in Hac; lia. }
  destruct (N.ltb_spec u 64) as [H1|H1];
    [|destruct (N.ltb_spec u 16384) as [H2|H2];
      [|destruct (N.ltb_spec u 1073741824) as [H3|H3]]].
  - split.
    + intros E0. apply Ok_inj in E0. subst b. split; [assumption|]. exists 0. split; [reflexivity|]. split; [reflexivity|].
      assert (u < 2 ^ (8 * 2 ^ 0 - 2)) by (change (u < 64); assumption).
      split; [assumption|]. apply (K 1%nat 0); auto; reflexivity.
    + intros (_ & two & _ & E & _ & ->). f_equal.
      change 1 with (2 ^ 0) in E at 1. apply U in E. subst two.
      apply (K 1%nat 0); [reflexivity | reflexivity | change (u < 64); assumption].
  - split.
    + intros E0. apply Ok_inj in E0. subst b. split; [assumption|]. exists 1. split; [reflexivity|]. split; [reflexivity|].
      assert (u < 2 ^ (8 * 2 ^ 1 - 2)) by (change (u < 16384); assumption).
      split; [assumption|]. apply (K 2%nat 1); auto; reflexivity.
    + intros (_ & two & _ & E & _ & ->). f_equal.
      change 2 with (2 ^ 1) in E at 1. apply U in E. subst two.
      apply (K 2%nat 1); [reflexivity | reflexivity | change (u < 16384); assumption].
  - split.
    + intros E0. apply Ok_inj in E0. subst b. split; [assumption|]. exists 2. split; [reflexivity|]. split; [reflexivity|].
      assert (u < 2 ^ (8 * 2 ^ 2 - 2)) by (change (u < 1073741824); assumption).
      split; [assumption|]. apply (K 4%nat 2); auto; reflexivity.
    + intros (_ & two & _ & E & _ & ->). f_equal.
      change 4 with (2 ^ 2) in E at 1. apply U in E. subst two.
      apply (K 4%nat 2); [reflexivity | reflexivity | change (u < 1073741824); assumption].
  - split.
    + intros E0. apply Ok_inj in E0. subst b. split; [assumption|]. exists 3. split; [reflexivity|]. split; [reflexivity|].
      assert (u < 2 ^ (8 * 2 ^ 3 - 2)) by (change (u < (2 ^ 62)); assumption).
      split; [assumption|]. apply (K 8%nat 3); auto; reflexivity.
    + intros (_ & two & _ & E & _ & ->). f_equal.
      change 8 with (2 ^ 3) in E at 1. apply U in E. subst two.
      apply (K 8%nat 3); [reflexivity | reflexivity | change (u < (2 ^ 62)); assumption].
Qed.

Lemma writeVarint_len u b : writeVarint u = Ok b -> len b = varint_size u.
Proof.
  intros H. apply writeVarint_spec in H. destruct H as (_ & two & _ & E & _ & ->).
  rewrite len_be, N2Nat.id. auto.
Qed.

Lemma varint_size_pos u : 1 <= varint_size u.
Proof.
  unfold varint_size. destruct (u <? 64), (u <? 16384), (u <? 1073741824); lia.
Qed.

Lemma writeVarint_Ok u : u < 2 ^ 62 -> exists b, writeVarint u = Ok b.
Proof.
  intros H. unfold writeVarint. rewrite N.shiftr_div_pow2, N.div_small by auto.
  change (0 <? 0) with false. cbv iota.
  destruct (if u <? 2 ^ (8 * 1 - 2) then _ else _) as [n two]. eauto.
Qed.

Lemma writeVarint_Err u : 2 ^ 62 <= u -> exists e, writeVarint u = Err e.
Proof.
  intros H. unfold writeVarint. rewrite N.shiftr_div_pow2.
  assert (E : 0 <? u / 2 ^ 62 = true).
  { apply N.ltb_lt. apply N.div_str_pos. split; auto. reflexivity. }
  rewrite E. eauto.
Qed.

(** Reading back what was written. *)
Lemma readVarint_write u b tail :
  writeVarint u = Ok b -> readVarint (b ++ tail) = Ok (List.length b, u, tail).
Proof.
  intros H. apply writeVarint_spec in H. destruct H as (H62 & two & H4 & _ & Hu & ->).
  set (n := 2 ^ two) in *.
  assert (Hn : 1 <= n <= 8).
  { assert (two = 0 \/ two = 1 \/ two = 2 \/ two = 3) as [E|[E|[E|E]]] by lia; subst n; rewrite E; vm_compute; split; discriminate. }
  set (w := u + two * 2 ^ (8 * n - 2)).
  destruct (N.to_nat n) as [|m] eqn:Em; [lia|].
  cbn [be app]. set (first := b8 (N.shiftr w (8 * N.of_nat m))).
  assert (Hm : n = N.of_nat m + 1) by lia.
  assert (Hp : 2 ^ (8 * n - 2) = 64 * 2 ^ (8 * N.of_nat m)).
  { replace (8 * n - 2) with (6 + 8 * N.of_nat m) by lia. rewrite N.pow_add_r. reflexivity. }
  set (P := 2 ^ (8 * N.of_nat m)) in *.
  assert (HP : 0 < P) by (apply N.neq_0_lt_0, N.pow_nonzero; lia).
  assert (Hq : u / P < 64) by (apply N.div_lt_upper_bound; lia).
  assert (Hf : bN first = u / P + two * 64).
  { unfold first. rewrite bN_b8, N.shiftr_div_pow2. fold P. unfold w. rewrite Hp.
    replace (u + two * (64 * P)) with (u + (two * 64) * P) by ring.
    rewrite N.div_add by lia. rewrite N.mod_small; lia. }
  unfold readVarint.
  assert (Htw : N.shiftr (bN first) 6 = two).
  { rewrite N.shiftr_div_pow2, Hf. change (2 ^ 6) with 64. rewrite N.div_add by lia.
    rewrite N.div_small by lia. lia. }
  rewrite Htw.
  assert (E2 : (2 ^ N.to_nat two = S m)%nat).
  { rewrite <- Em. unfold n. assert (two = 0 \/ two = 1 \/ two = 2 \/ two = 3) as [E|[E|[E|E]]] by lia; rewrite E; reflexivity. }
  rewrite E2. replace (S m - 1)%nat with m by lia.
  rewrite firstn_app_n by (symmetry; apply be_length).
  rewrite skipn_app_n by (symmetry; apply be_length).
  rewrite be_length, Nat.eqb_refl. simpl negb. cbv iota.
  f_equal. f_equal. f_equal.
  { simpl. now rewrite be_length. }
  unfold unbe64. rewrite unbe_cons, bN_b8, len_be, unbe_be.
  assert (Hl : N.land (bN first) 63 = u / P).
  { change 63 with (N.ones 6). rewrite N.land_ones, Hf. change (2 ^ 6) with 64.
    rewrite N.mod_add by lia. apply N.mod_small; lia. }
  rewrite Hl. rewrite (N.mod_small (u / P)) by lia.
  assert (E256 : 256 ^ N.of_nat m = P) by apply pow_256. rewrite E256.
  assert (Ew : w mod P = u mod P).
  { unfold w. rewrite Hp. replace (u + two * (64 * P)) with (u + (two * 64) * P) by ring.
    apply N.mod_add. lia. }
  rewrite Ew, N.mul_comm, <- N.div_mod by lia.
  apply N.mod_small. change (2 ^ 62) with 4611686018427387904 in H62.
  change (2 ^ 64) with 18446744073709551616. lia.
Qed.

(** A successful read consumed a prefix and only looked at it; its value fits the form. *)
Lemma readVarint_prefix d n u d' :
  readVarint d = Ok (n, u, d') ->
  exists pre, d = pre ++ d' /\ List.length pre = n /\ (1 <= n)%nat /\ u < 2 ^ (8 * N.of_nat n - 2) /\ (n <= 8)%nat /\ forall tail, readVarint (pre ++ tail) = Ok (n, u, tail).
Proof.
  unfold readVarint. destruct d as [|first d1]; [discriminate|].
  set (vl := (2 ^ N.to_nat (N.shiftr (bN first) 6))%nat).
  assert (Hvl : (vl = 1 \/ vl = 2 \/ vl = 4 \/ vl = 8)%nat).
  { unfold vl. assert (Hs : N.shiftr (bN first) 6 < 4).
    { rewrite N.shiftr_div_pow2. change (2 ^ 6) with 64. pose proof (bN_lt first). apply N.div_lt_upper_bound; lia. }
    assert (N.shiftr (bN first) 6 = 0 \/ N.shiftr (bN first) 6 = 1 \/ N.shiftr (bN first) 6 = 2 \/ N.shiftr (bN first) 6 = 3) as [E|[E|[E|E]]] by lia;
    rewrite E; simpl; auto. }
  destruct (List.length (firstn (vl - 1) d1) =? vl - 1)%nat eqn:E; [|discriminate]. simpl negb. cbv iota.
  apply Nat.eqb_eq in E. intros [= <- <- <-].
  exists (first :: firstn (vl - 1) d1). repeat split.
  - simpl. now rewrite firstn_skipn.
  - simpl. lia.
  - lia.
  - unfold unbe64. assert (B : unbe (b8 (N.land (bN first) 63) :: firstn (vl - 1) d1) < 2 ^ (8 * N.of_nat vl - 2)).
    { rewrite unbe_cons, bN_b8. pose proof (unbe_lt (firstn (vl - 1) d1)) as Hlt.
      unfold len in *. rewrite E in *.
      assert (Hl : N.land (bN first) 63 < 64).
      { change 63 with (N.ones 6). rewrite N.land_ones. apply N.mod_lt. discriminate. }
      rewrite (N.mod_small (N.land _ _)) by lia.
      replace (8 * N.of_nat vl - 2) with (6 + 8 * N.of_nat (vl - 1)) by lia.
      rewrite N.pow_add_r, <- pow_256. change (2 ^ 6) with 64. nia. }
    eapply N.le_lt_trans; [apply N.mod_le; discriminate | exact B].
  - lia.
  - intros tail. cbn [app]. fold vl.
    rewrite !(firstn_app_n (vl - 1)) by auto. rewrite skipn_app_n by auto.
    rewrite E, Nat.eqb_refl. reflexivity.
Qed.

Lemma readVarint_no_panic d : readVarint d <> Panic.
Proof.
  unfold readVarint. destruct d; [discriminate|].
  destruct (negb _); discriminate.
Qed.
Lemma readVarint_no_fuel d : readVarint d <> Fuel.
Proof.
  unfold readVarint. destruct d; [discriminate|].
  destruct (negb _); discriminate.
Qed.
