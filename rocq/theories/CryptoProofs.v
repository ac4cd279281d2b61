(** HKDF, HkdfLabel and finite-field agreement. *)
From Verif Require Import Base Crypto CryptoSpec.

(** ** HKDF-Expand *)

Lemma blocks_S mac prk info n : blocks5869 mac prk info (S n) = blocks5869 mac prk info n ++ T5869 mac prk info (S n).
Proof. unfold blocks5869. rewrite seq_S, map_app, concat_app. cbn [map concat plus]. now rewrite app_nil_r. Qed.

Section Expand.
Variables (P : prims) (h : hash) (prk info : bytes) (outLen : nat).
Hypothesis HP : mac_sized P.
Let mac := hmac P h.
Let L := hsize h.

Lemma hsize_pos : (0 < hsize h)%nat.
Proof. destruct h; simpl; lia. Qed.
Lemma T_length i : List.length (T5869 mac prk info (S i)) = L.
Proof. cbn [T5869]. apply HP. Qed.
Lemma blocks_length n : List.length (blocks5869 mac prk info n) = (n * L)%nat.
Proof. induction n as [|n IH]; [reflexivity|]. rewrite blocks_S, app_length, IH, T_length. lia. Qed.

Lemma expand_loop steps : forall n, (outLen <= n * L + steps)%nat -> (outLen <= 255 * L)%nat -> (n * L < outLen + L)%nat -> (outLen <> 0 \/ n = 0)%nat ->
  hkdfExpand_loop P h prk info outLen steps (b8 (N.of_nat (S n))) (T5869 mac prk info n) (blocks5869 mac prk info n) =
  firstn outLen (blocks5869 mac prk info 255).
Proof.
  assert (Hpre : forall n k, (n <= k)%nat -> exists r, blocks5869 mac prk info k = blocks5869 mac prk info n ++ r).
  { intros n k Hk. induction Hk as [|k Hk [r IH]]; [exists []; now rewrite app_nil_r|]. rewrite blocks_S, IH, <- app_assoc. eauto. }
  assert (Hend : forall n, (outLen <= n * L)%nat -> (n * L < outLen + L)%nat -> (outLen <= 255 * L)%nat -> firstn outLen (blocks5869 mac prk info n) = firstn outLen (blocks5869 mac prk info 255)).
  { intros n H1 H2 H3. assert (Lpos : (0 < L)%nat) by apply hsize_pos. assert (n <= 255)%nat by nia. destruct (Hpre n 255%nat) as [r ->]; auto.
    rewrite firstn_app, blocks_length. replace (outLen - n * L)%nat with O by lia. cbn [firstn]. now rewrite app_nil_r. }
  induction steps as [|steps IH]; intros n H1 H2 H3 H4; cbn [hkdfExpand_loop].
  - apply Hend; lia.
  - rewrite blocks_length. destruct (Nat.ltb_spec (n * L) outLen) as [Hl|Hl].
    + assert (Lpos : (0 < L)%nat) by apply hsize_pos.
      specialize (IH (S n)).
      replace (b8 (N.of_nat (S (S n)))) with (b8 (bN (b8 (N.of_nat (S n))) + 1)) in IH.
      2:{ apply bN_inj. rewrite !bN_b8. assert (n < 255)%nat by nia. rewrite (N.mod_small (N.of_nat (S n))) by lia. f_equal. lia. }
      rewrite blocks_S in IH. cbn [T5869] in IH. apply IH; lia.
    + apply Hend; lia.
Qed.

Theorem expand_rfc : (outLen <= 255 * hsize h)%nat ->
  List.length (hkdfExpand P h prk info outLen) = outLen /\
  hkdfExpand P h prk info outLen = firstn outLen (blocks5869 mac prk info 255).
Proof.
  intros H. assert (E : hkdfExpand P h prk info outLen = firstn outLen (blocks5869 mac prk info 255)).
  { apply (expand_loop outLen 0); try lia. assert (Lpos : (0 < L)%nat) by apply hsize_pos. lia. }
  split; [|exact E]. rewrite E, firstn_length, blocks_length. unfold L. lia.
Qed.
End Expand.

(** ** Labels *)

Lemma b8_be1 n : [b8 n] = be 1 n.
Proof. reflexivity. Qed.
Theorem label_rfc label context length :
  hkdfEncodeLabel label context length = HkdfLabel8446 (str "tls13 " ++ label) context length.
Proof. unfold hkdfEncodeLabel, HkdfLabel8446. reflexivity. Qed.

Lemma app_inv_length {A} (a b c d : list A) : a ++ b = c ++ d -> List.length a = List.length c -> a = c /\ b = d.
Proof. revert c. induction a as [|x a IH]; intros [|y c]; simpl; try discriminate; auto. intros [= -> H] [= Hl]. destruct (IH c H Hl) as [-> ->]. auto. Qed.
Lemma be_inj n a b : a < 256 ^ N.of_nat n -> b < 256 ^ N.of_nat n -> be n a = be n b -> a = b.
Proof. intros Ha Hb H. rewrite <- (unbe_be_small n a), <- (unbe_be_small n b) by auto. now f_equal. Qed.

(** No bound on the labels is needed: the total length settles what the length byte leaves open. *)
Theorem label_inj l1 c1 n1 l2 c2 n2 : len c1 <= 255 -> n1 < 2 ^ 16 -> len c2 <= 255 -> n2 < 2 ^ 16 ->
  hkdfEncodeLabel l1 c1 n1 = hkdfEncodeLabel l2 c2 n2 -> l1 = l2 /\ c1 = c2 /\ n1 = n2.
Proof.
  intros A2 A3 B2 B3 H. rewrite !label_rfc in H. unfold HkdfLabel8446 in H.
  set (m1 := str "tls13 " ++ l1) in *. set (m2 := str "tls13 " ++ l2) in *.
  assert (HT : len m1 + len c1 = len m2 + len c2) by (apply (f_equal len) in H; rewrite !len_app, !len_be in H; lia).
  apply app_inv_length in H as [H0 H]; [|now rewrite !be_length].
  apply app_inv_length in H as [H1 H]; [|now rewrite !be_length].
  apply be_inj in H0; [|change (256 ^ N.of_nat 2) with (2 ^ 16); lia..].
  apply (f_equal unbe) in H1. rewrite !unbe_be in H1. change (256 ^ N.of_nat 1) with 256 in H1.
  assert (HL : len m1 = len m2).
  { pose proof (N.div_mod (len m1) 256). pose proof (N.div_mod (len m2) 256). pose proof (N.mod_lt (len m1) 256). lia. }
  apply app_inv_length in H as [H2 H]; [|unfold len in HL; lia].
  apply app_inv_length in H as [_ H]; [|now rewrite !be_length].
  unfold m1, m2 in H2. apply app_inv_head in H2. auto.
Qed.

(** ** Finite fields *)

Lemma byteLen_spec n k : (byteLen n <= k)%nat <-> n < 256 ^ N.of_nat k.
Proof.
  unfold byteLen. change 256 with (2 ^ 8). rewrite <- N.pow_mul_r.
  assert (E : (N.to_nat ((N.size n + 7) / 8) <= k)%nat <-> N.size n <= 8 * N.of_nat k).
  { split; intros H.
    - pose proof (N.div_mod (N.size n + 7) 8). pose proof (N.mod_lt (N.size n + 7) 8). lia.
    - assert ((N.size n + 7) / 8 < N.of_nat k + 1) by (apply N.div_lt_upper_bound; lia). lia. }
  rewrite E. split; intros H.
  - eapply N.lt_le_trans; [apply N.size_gt|]. apply N.pow_le_mono_r; lia.
  - destruct (N.eq_dec n 0) as [->|Hn]; [cbn; lia|]. rewrite N.size_log2 by auto. apply N.log2_lt_pow2 in H; lia.
Qed.
Lemma unbe_intBytes n : unbe (intBytes n) = n.
Proof. unfold intBytes. apply unbe_be_small. now apply byteLen_spec. Qed.
Lemma unbe_zeros k b : unbe (repeat x00 k ++ b) = unbe b.
Proof. induction k as [|k IH]; [reflexivity|]. cbn [repeat app]. rewrite unbe_cons, IH. change (bN x00) with 0. lia. Qed.
Lemma padLeft_ok n x : x < 256 ^ N.of_nat n -> exists b, padLeft n (intBytes x) = Ok b /\ List.length b = n /\ unbe b = x.
Proof.
  intros H. apply byteLen_spec in H. unfold padLeft. unfold intBytes at 1. rewrite be_length. destruct (Nat.ltb_spec n (byteLen x)); [lia|].
  eexists. split; [reflexivity|]. split.
  - rewrite app_length, repeat_length. unfold intBytes. rewrite !be_length. lia.
  - now rewrite unbe_zeros, unbe_intBytes.
Qed.

Lemma ffdhe_prime g : In g ffdhe_groups -> exists p, primeFromNamedGroup g = Some p /\ 1 < p /\ p < 256 ^ N.of_nat (keyExchangeSize g) /\
  (g =? P256) || (g =? P384) || (g =? P521) || (g =? X25519) = false.
Proof.
  intros H. assert (E : forallb (fun g => match primeFromNamedGroup g with Some p => (1 <? p) && (p <? 256 ^ N.of_nat (keyExchangeSize g)) && negb ((g =? P256) || (g =? P384) || (g =? P521) || (g =? X25519)) | None => false end) ffdhe_groups = true) by (vm_compute; reflexivity).
  rewrite forallb_forall in E. specialize (E g H). destruct (primeFromNamedGroup g) as [p|]; [|discriminate].
  apply andb_true_iff in E as [E E3]. apply andb_true_iff in E as [E1 E2]. exists p. apply N.ltb_lt in E1, E2. apply negb_true_iff in E3. auto.
Qed.
Lemma ffdhe_loop p rand priv pub : ffdheKeyShareFromPrime p rand = Ok (priv, pub) -> pub = expMod 2 priv p.
Proof.
  induction rand as [|[x|] rand IH]; cbn [ffdheKeyShareFromPrime]; try discriminate.
  destruct (_ =? _)%nat; [|exact IH]. intros [= <- <-]. reflexivity.
Qed.
Lemma N_pow_mod a b p : p <> 0 -> (a mod p) ^ b mod p = a ^ b mod p.
Proof.
  intros Hp. induction b as [|b IH] using N.peano_ind; [reflexivity|].
  rewrite !N.pow_succ_r'. rewrite N.mul_mod, IH, N.mod_mod, <- N.mul_mod by auto. reflexivity.
Qed.
Lemma expMod_swap p a b : 1 < p -> expMod (expMod 2 a p) b p = 2 ^ (a * b) mod p.
Proof. intros H. unfold expMod. rewrite N.pow_mul_r. apply N_pow_mod. lia. Qed.

Theorem ffdhe_agree P g ra rb puba priva pubb privb : In g ffdhe_groups ->
  newKeyShare P ra g = Ok (puba, priva) -> newKeyShare P rb g = Ok (pubb, privb) ->
  exists z, keyAgreement P g pubb priva = Ok z /\ keyAgreement P g puba privb = Ok z /\ List.length z = keyExchangeSize g.
Proof.
  intros Hg Ha Hb. destruct (ffdhe_prime g Hg) as (p & Ep & Hp1 & Hp2 & Hc).
  assert (K : forall r pub priv, newKeyShare P r g = Ok (pub, priv) -> List.length pub = keyExchangeSize g /\ unbe pub = expMod 2 (unbe priv) p).
  { intros r pub priv H. unfold newKeyShare in H. rewrite Hc, Ep in H. destruct (ffdheKeyShareFromPrime p (kr_ints r)) as [[x X]| | |] eqn:E; try discriminate. cbn [bind] in H.
    apply ffdhe_loop in E. assert (HX : X < 256 ^ N.of_nat (keyExchangeSize g)) by (subst X; unfold expMod; pose proof (N.mod_lt (2 ^ x) p); lia).
    destruct (padLeft_ok _ _ HX) as (b & Eb & Hl & Hv). rewrite Eb in H. cbn [bind] in H. apply Ok_inj in H. injection H as <- <-.
    rewrite unbe_intBytes. split; congruence. }
  destruct (K _ _ _ Ha) as [La Va], (K _ _ _ Hb) as [Lb Vb].
  unfold keyAgreement. rewrite Hc, Ep, La, Lb, Nat.eqb_refl. cbn [negb].
  rewrite Va, Vb, !expMod_swap by auto. rewrite (N.mul_comm (unbe priva)).
  destruct (padLeft_ok (keyExchangeSize g) (2 ^ (unbe privb * unbe priva) mod p)) as (z & Ez & Hl & _).
  { pose proof (N.mod_lt (2 ^ (unbe privb * unbe priva)) p). lia. }
  exists z. auto.
Qed.
