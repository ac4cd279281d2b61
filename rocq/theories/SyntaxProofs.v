(** Proofs about the [syntax] codec: round trip. *)
From Verif Require Import Base Syntax SyntaxSpec SyntaxVarint.
From Coq Require Import Permutation.

(** ** Value equality *)

Section ValInd.
  Variable P : val -> Prop.
  Hypothesis HU : forall n, P (VUint n).
  Hypothesis HL : forall l, Forall P l -> P (VList l).
  Hypothesis HM : forall l, Forall P (map fst l) -> Forall P (map snd l) -> P (VMap l).
  Hypothesis HN : P VNil.
  Hypothesis HP : forall v, P v -> P (VPtr v).
  Fixpoint val_ind2 (v : val) : P v.
  Proof.
    destruct v as [n|l|l| |v].
    - apply HU.
    - apply HL. induction l; constructor; auto.
    - apply HM; induction l as [|[a b] l IH]; constructor; simpl; auto.
    - apply HN.
    - apply HP, val_ind2.
  Qed.
End ValInd.

Lemma Forall2_refl_in {A} (R : A -> A -> Prop) l : Forall (fun x => R x x) l -> Forall2 R l l.
Proof. induction 1; constructor; auto. Qed.

Lemma veq_refl v : veq v v.
Proof.
  induction v using val_ind2; try (constructor; auto using Forall2_refl_in; fail).
  eapply veq_map; [apply Permutation_refl | now apply Forall2_refl_in..].
Qed.

Lemma val_eqb_eq a : forall b, val_eqb a b = true <-> a = b.
Proof.
  induction a as [n|l IH|l IH1 IH2| |v IH] using val_ind2; intros [m|m|m| |w]; simpl; try (split; congruence).
  - rewrite N.eqb_eq. split; congruence.
  - assert (K : (fix go (l m : list val) {struct l} : bool :=
       match l with [] => match m with [] => true | _ :: _ => false end
       | x :: l => match m with [] => false | y :: m => val_eqb x y && go l m end end) l m = true <-> l = m).
    { revert m. induction IH as [|x l Hx _ IHl]; intros [|y m]; try (split; congruence).
      rewrite andb_true_iff, Hx, IHl. split; [intros [-> ->]; auto | intros [= -> ->]; auto]. }
    rewrite K. split; congruence.
  - assert (K : (fix gom (l m : list (val * val)) {struct l} : bool :=
       match l with [] => match m with [] => true | _ :: _ => false end
       | (x, x') :: l => match m with [] => false | (y, y') :: m => val_eqb x y && val_eqb x' y' && gom l m end end) l m = true <-> l = m).
    { revert m IH1 IH2. induction l as [|[x x'] l IHl]; intros [|[y y'] m] IH1 IH2; try (split; congruence).
      simpl in IH1, IH2. inversion IH1; inversion IH2; subst.
      rewrite !andb_true_iff, H1, H5, IHl by auto. split; [intros [[-> ->] ->]; auto | intros [= -> -> ->]; auto]. }
    rewrite K. split; congruence.
  - rewrite IH. split; congruence.
Qed.

(** ** Length headers *)

Lemma shiftr_zero_lt n k : (0 <= k)%Z -> (0 <? Z.shiftr (Z.of_N n) k)%Z = false -> (Z.of_N n < 2 ^ k)%Z.
Proof.
  intros Hk H. apply Z.ltb_ge in H. rewrite Z.shiftr_div_pow2 in H by auto.
  assert (0 < 2 ^ k)%Z by (apply Z.pow_pos_nonneg; lia).
  destruct (Z_lt_le_dec (Z.of_N n) (2 ^ k)); auto.
  assert (1 <= Z.of_N n / 2 ^ k)%Z by (apply Z.div_le_lower_bound; lia). lia.
Qed.

Lemma zpow256 k : (0 <= k)%Z -> (256 ^ k = 2 ^ (8 * k))%Z.
Proof. intros H. change 256%Z with (2 ^ 8)%Z. rewrite <- Z.pow_mul_r; lia. Qed.

Lemma encodeLength_within n o h :
  encodeLength n o = Ok h -> within o n /\ len h = header_len o n.
Proof.
  unfold encodeLength, within, header_len.
  destruct ((0 <? maxSize o) && (maxSize o <? Z.of_N n))%Z eqn:E1; [discriminate|].
  destruct (Z.of_N n <? minSize o)%Z eqn:E2; [discriminate|].
  assert (A1 : (0 < maxSize o)%Z -> (Z.of_N n <= maxSize o)%Z) by lia.
  assert (A2 : (minSize o <= Z.of_N n)%Z) by lia.
  destruct (omitHeader o).
  { intros H. apply Ok_inj in H. subst. repeat split; auto; discriminate. }
  destruct (varintHeader o).
  { intros H. pose proof H as H'. apply writeVarint_spec in H'. destruct H' as (H62 & _).
    repeat split; auto; try discriminate. now apply writeVarint_len. }
  destruct (0 <? headerSize o)%Z eqn:E3; [|discriminate].
  destruct (0 <? Z.shiftr (Z.of_N n) (8 * headerSize o))%Z eqn:E4; [discriminate|].
  intros H. apply Ok_inj in H. subst.
  repeat split; auto; try discriminate; try lia.
  - rewrite zpow256 by lia. apply shiftr_zero_lt; [lia | auto].
  - rewrite len_be. lia.
Qed.

Lemma within_encodeLength n o : within o n -> exists h, encodeLength n o = Ok h.
Proof.
  intros (A1 & A2 & A3 & A4). unfold encodeLength.
  destruct ((0 <? maxSize o) && (maxSize o <? Z.of_N n))%Z eqn:E1; [lia|].
  destruct (Z.of_N n <? minSize o)%Z eqn:E2; [lia|].
  destruct (omitHeader o); [eauto|].
  destruct (varintHeader o); [apply writeVarint_Ok; auto|].
  destruct A4 as [A4 A5]; auto. destruct (0 <? headerSize o)%Z eqn:E3; [|lia].
  destruct (0 <? Z.shiftr (Z.of_N n) (8 * headerSize o))%Z eqn:E4; [|eauto].
  exfalso. rewrite zpow256 in A5 by lia. rewrite Z.shiftr_div_pow2, Z.div_small in E4; lia.
Qed.

Lemma to_int_small n : n < 2 ^ 63 -> to_int n = Z.of_N n.
Proof. intros H. unfold to_int. now apply N.ltb_lt in H as ->. Qed.

Lemma decodeLength_encode n o h d :
  encodeLength n o = Ok h -> n < 2 ^ 63 -> (omitHeader o = true -> len d = n) ->
  decodeLength (h ++ d) o = Ok (List.length h, Z.of_N n, d).
Proof.
  intros H Hn Hd. pose proof (encodeLength_within _ _ _ H) as ((A1 & A2 & A3 & A4) & _).
  unfold encodeLength in H. unfold decodeLength.
  destruct ((0 <? maxSize o) && (maxSize o <? Z.of_N n))%Z eqn:E1; [discriminate|].
  destruct (Z.of_N n <? minSize o)%Z eqn:E2; [discriminate|].
  destruct (omitHeader o).
  { apply Ok_inj in H. subst h. simpl app. rewrite Hd by auto. cbn [bind]. rewrite E1, E2. reflexivity. }
  destruct (varintHeader o).
  { rewrite (readVarint_write _ _ _ H). cbn [bind]. rewrite to_int_small by auto. rewrite E1, E2. reflexivity. }
  destruct (0 <? headerSize o)%Z eqn:E3; [|discriminate].
  destruct (0 <? Z.shiftr (Z.of_N n) (8 * headerSize o))%Z eqn:E4; [discriminate|].
  apply Ok_inj in H. subst h.
  set (k := Z.to_nat (headerSize o)).
  rewrite firstn_app_n by (symmetry; apply be_length). rewrite skipn_app_n by (symmetry; apply be_length).
  rewrite be_length, Nat.eqb_refl. simpl negb. cbv iota. cbn [bind].
  assert (Eu : unbe64 (be k n) = n).
  { unfold unbe64. rewrite unbe_be_small.
    - apply N.mod_small. eapply N.lt_trans; [exact Hn | reflexivity].
    - destruct A4 as [_ A4]; auto. unfold k.
      assert (Ek : 256 ^ N.of_nat (Z.to_nat (headerSize o)) = Z.to_N (256 ^ headerSize o)).
      { apply N2Z.inj. rewrite Z2N.id by (apply Z.pow_nonneg; lia).
        rewrite N2Z.inj_pow. f_equal. lia. }
      rewrite Ek. lia. }
  rewrite Eu, to_int_small by auto. rewrite E1, E2. reflexivity.
Qed.

Lemma decodeLength_prefix d o r L d' :
  decodeLength d o = Ok (r, L, d') ->
  exists pre, d = pre ++ d' /\ List.length pre = r /\
    (omitHeader o = true -> L = Z.of_N (len d') /\ r = 0%nat) /\
    (omitHeader o = false -> (1 <= r)%nat /\ forall tail, decodeLength (pre ++ tail) o = Ok (r, L, tail)) /\
    ((0 < maxSize o)%Z -> (L <= maxSize o)%Z) /\ (minSize o <= L)%Z.
Proof.
  unfold decodeLength. intros H. apply bind_Ok in H. destruct H as ([[r0 L0] d0] & H1 & H2).
  destruct ((0 <? maxSize o) && (maxSize o <? L0))%Z eqn:E1; [discriminate|].
  destruct (L0 <? minSize o)%Z eqn:E2; [discriminate|].
  apply Ok_inj in H2. injection H2 as -> -> ->.
  assert (B1 : (0 < maxSize o)%Z -> (L <= maxSize o)%Z) by lia.
  assert (B2 : (minSize o <= L)%Z) by lia.
  destruct (omitHeader o).
  { apply Ok_inj in H1. injection H1 as <- <- <-. exists []. repeat split; auto; discriminate. }
  destruct (varintHeader o).
  { apply bind_Ok in H1. destruct H1 as ([[r1 u] d1] & H1 & H3).
    apply Ok_inj in H3. injection H3 as -> <- ->.
    destruct (readVarint_prefix _ _ _ _ H1) as (pre & -> & Hl & Hr & _ & _ & Ht).
    exists pre. repeat split; auto; try discriminate.
    intros tail. rewrite Ht. cbn [bind]. rewrite E1, E2. reflexivity. }
  destruct (0 <? headerSize o)%Z eqn:E3; [|discriminate].
  destruct (List.length (firstn (Z.to_nat (headerSize o)) d) =? Z.to_nat (headerSize o))%nat eqn:E4; [|discriminate].
  simpl negb in H1. cbv iota in H1. apply Ok_inj in H1. injection H1 as <- <- <-.
  apply Nat.eqb_eq in E4.
  exists (firstn (Z.to_nat (headerSize o)) d). rewrite firstn_skipn. repeat split; auto; try discriminate; try lia.
  intros tail. rewrite !(firstn_app_n (Z.to_nat (headerSize o))) by auto.
  rewrite skipn_app_n by auto. rewrite E4, Nat.eqb_refl. simpl negb. cbv iota. cbn [bind].
  rewrite E1, E2. reflexivity.
Qed.

Lemma takeElems_app a b : takeElems (Z.of_N (len a)) (a ++ b) = Ok (a, b).
Proof.
  unfold takeElems. destruct (Z.of_N (len a) <? 0)%Z eqn:E; [lia|].
  rewrite len_app. destruct (Z.of_N (len a + len b) <? Z.of_N (len a))%Z eqn:E2; [lia|].
  unfold len. rewrite nat_N_Z, Nat2Z.id, firstn_app_len, skipn_app_len. reflexivity.
Qed.

Lemma takeElems_Ok L d a b : takeElems L d = Ok (a, b) -> d = a ++ b /\ L = Z.of_N (len a).
Proof.
  unfold takeElems. destruct (L <? 0)%Z eqn:E; [discriminate|].
  destruct (Z.of_N (len d) <? L)%Z eqn:E2; [discriminate|].
  intros H. apply Ok_inj in H. injection H as <- <-. rewrite firstn_skipn. split; auto.
  unfold len in *. rewrite firstn_length_le; lia.
Qed.

(** ** Encodings are not empty when the type says so *)

Lemma encode_nonempty :
  (forall t o v b, nonempty t o -> encode t o v = Ok b -> b <> []) /\
  (forall fs l b, nonempty_fields fs -> encode_fields fs l = Ok b -> b <> []).
Proof.
  apply ty_fields_ind; simpl.
  - intros s o v b _. destruct v; try discriminate. destruct (_ <? _); [|discriminate].
    destruct (varint o).
    + intros H E. apply writeVarint_len in H. pose proof (varint_size_pos n). subst b. rewrite len_nil in H. lia.
    + intros H. apply Ok_inj in H. subst. destruct s; discriminate.
  - intros n t IH o v b [Hn Ht]. destruct v; try discriminate.
    destruct (Nat.eqb_spec (List.length l) n); [|discriminate].
    destruct l as [|v l]; [simpl in *; congruence|]. simpl. intros H.
    inv_bind H as a Ha. inv_bind H as a0 Ha0. apply Ok_inj in H. subst. apply IH in Ha; auto.
    destruct a; [congruence|discriminate].
  - intros t IH o v b Hn. destruct v; try discriminate. intros H.
    inv_bind H as a Ha. inv_bind H as a0 Hb0. apply Ok_inj in H. subst.
    apply encodeLength_within in Hb0. destruct Hb0 as ((_ & Hmin & Hv & Hh) & Hl).
    intros E. apply app_eq_nil in E. destruct E as [-> ->]. rewrite len_nil in *.
    unfold header_len in Hl. destruct Hn as [Hn|Hn]; [|lia]. rewrite Hn in *.
    destruct (varintHeader o).
    + pose proof (varint_size_pos 0). lia.
    + destruct Hh; auto. lia.
  - intros fs IH o v b Hn. destruct v; try discriminate. apply IH; auto.
  - intros k _ e _ o v b Hn. destruct v; try discriminate. destruct (keys_nodup l); [|discriminate]. intros H.
    inv_bind H as a Ha. inv_bind H as a0 Hb0. apply Ok_inj in H. subst.
    apply encodeLength_within in Hb0. destruct Hb0 as ((_ & Hmin & Hv & Hh) & Hl).
    intros E. apply app_eq_nil in E. destruct E as [-> E]. rewrite E in *. rewrite len_nil in *.
    unfold header_len in Hl. destruct Hn as [Hn|Hn]; [|lia]. rewrite Hn in *.
    destruct (varintHeader o).
    + pose proof (varint_size_pos 0). lia.
    + destruct Hh; auto. lia.
  - intros t IH o v b Hn. destruct v; try discriminate.
    + destruct (optional o); [|discriminate]. intros H. apply Ok_inj in H. subst. discriminate.
    + intros H. inv_bind H as a Ha. apply Ok_inj in H. subst. destruct (optional o); [discriminate|].
      destruct Hn as [Hn|Hn]; [discriminate|]. simpl. eapply IH; eauto.
  - intros p t IH o v b Hn. destruct (p v); [|discriminate]. apply IH; auto.
  - intros z e d o v b [He _]. destruct (e v) eqn:E; [|discriminate]. intros H. apply Ok_inj in H. subst. eauto.
  - intros l b [].
  - intros o t IHt fs IHf l b Hn. destruct l as [|v l]; [discriminate|].
    destruct (omit o).
    + destruct Hn as [[? _]|Hn]; [discriminate|]. apply IHf; auto.
    + intros H. inv_bind H as a Ha. inv_bind H as a0 Ha0. apply Ok_inj in H. subst.
      intros E. apply app_eq_nil in E. destruct E as [-> ->].
      destruct Hn as [[_ Hn]|Hn]; [eapply IHt | eapply IHf]; eauto.
Qed.

(** ** Map keys survive unchanged *)

Lemma key_exact :
  (forall t o v b, key_ty t = true -> encode t o v = Ok b ->
     visible t v = v /\ forall v', veq v v' -> v' = v) /\
  (forall fs l b, key_fields fs = true -> encode_fields fs l = Ok b ->
     visibles fs l = l /\ forall l', Forall2 veq l l' -> l' = l).
Proof.
  apply ty_fields_ind; simpl; try discriminate.
  - intros s o v b _ H. destruct v; try discriminate. split; auto. intros v' Hv. inversion Hv; auto.
  - intros n t IH o v b Hk H. destruct v; try discriminate. destruct (_ =? _)%nat; [|discriminate].
    assert (K : map (visible t) l = l /\ forall l', Forall2 veq l l' -> l' = l).
    { clear n. revert b H. induction l as [|v l IHl]; simpl; intros b H.
      - split; auto. intros l' H'. inversion H'; auto.
      - inv_bind H as a Hb. inv_bind H as a0 Hb0. destruct (IHl _ Hb0) as [E1 E2]. destruct (IH _ _ _ Hk Hb) as [E3 E4].
        split; [congruence|]. intros l' H'. inversion H'; subst. f_equal; auto. }
    destruct K as [K1 K2]. split; [congruence|]. intros v' Hv. inversion Hv; subst. f_equal; auto.
  - intros fs IH o v b Hk H. destruct v; try discriminate. destruct (IH _ _ Hk H) as [K1 K2].
    split; [congruence|]. intros v' Hv. inversion Hv; subst. f_equal; auto.
  - intros l b _ H. destruct l; [|discriminate]. split; auto. intros l' H'. inversion H'; auto.
  - intros o t IHt fs IHf l b Hk H. destruct l as [|v l]; [discriminate|].
    apply andb_true_iff in Hk. destruct Hk as [Hk Hkf]. apply andb_true_iff in Hk. destruct Hk as [Ho Hkt].
    apply negb_true_iff in Ho. rewrite Ho in *. inv_bind H as a Hb. inv_bind H as a0 Hb0.
    destruct (IHt _ _ _ Hkt Hb) as [E1 E2]. destruct (IHf _ _ Hkf Hb0) as [E3 E4].
    split; [congruence|]. intros l' H'. inversion H'; subst. f_equal; auto.
Qed.

(** ** Sorting *)

Lemma insert_pair_perm p l : Permutation (p :: l) (insert_pair p l).
Proof.
  induction l as [|q l IH]; simpl; auto. destruct (blt (fst q) (fst p)); auto.
  rewrite perm_swap. now constructor.
Qed.
Lemma sort_pairs_perm l : Permutation l (sort_pairs l).
Proof.
  induction l as [|p l IH]; simpl; auto. rewrite <- insert_pair_perm. now constructor.
Qed.

Lemma enc_pairs_Forall2 ek ev l ps :
  enc_pairs ek ev l = Ok ps <->
  Forall2 (fun p q => ek (fst p) = Ok (fst q) /\ ev (snd p) = Ok (snd q)) l ps.
Proof.
  revert ps. induction l as [|[k v] l IH]; simpl; intros ps.
  - split; [intros H; apply Ok_inj in H; subst; constructor | intros H; inversion H; auto].
  - split.
    + intros H. inv_bind H as bk Hk. inv_bind H as bv Hv. inv_bind H as r Hr. apply Ok_inj in H. subst.
      constructor; auto. now apply IH.
    + intros H. inversion H as [|? [bk bv] ? ps' [H1 H2] H3]; subst. simpl in *.
      rewrite H1, H2. simpl. apply IH in H3. rewrite H3. reflexivity.
Qed.

Lemma Forall2_perm_r {A B} (R : A -> B -> Prop) l m m' :
  Forall2 R l m -> Permutation m m' -> exists l', Permutation l l' /\ Forall2 R l' m'.
Proof.
  intros H P. revert l H. induction P; intros l0 H.
  - inversion H; subst. exists []; auto.
  - inversion H as [|a ? la ? Ha Hla]; subst. destruct (IHP _ Hla) as (lb & P' & F). exists (a :: lb). split; auto.
  - inversion H as [|a ? l1 ? Ha H1]; subst. inversion H1 as [|b ? l2 ? Hb H2]; subst.
    exists (b :: a :: l2). split; [apply perm_swap|]. repeat constructor; auto.
  - destruct (IHP1 _ H) as (l1 & P1' & F1). destruct (IHP2 _ F1) as (l2 & P2' & F2).
    exists l2. split; [eapply Permutation_trans; eauto | auto].
Qed.

Lemma key_in_spec k l : key_in k l = true <-> In k (map fst l).
Proof.
  unfold key_in. rewrite existsb_exists, in_map_iff. split.
  - intros (p & Hp & E). apply val_eqb_eq in E. exists p; auto.
  - intros (p & E & Hp). exists p. split; auto. now apply val_eqb_eq.
Qed.
Lemma keys_nodup_spec l : keys_nodup l = true <-> NoDup (map fst l).
Proof.
  induction l as [|[k v] l IH]; simpl.
  - split; [constructor|auto].
  - rewrite andb_true_iff, negb_true_iff, IH. split.
    + intros [H1 H2]. constructor; auto. intros H. apply key_in_spec in H. congruence.
    + intros H. inversion H; subst. split; auto. destruct (key_in k l) eqn:E; auto.
      apply key_in_spec in E. contradiction.
Qed.

Lemma map_set_fresh k v m : ~ In k (map fst m) -> map_set k v m = m ++ [(k, v)].
Proof.
  induction m as [|[k' v'] m IH]; simpl; intros H; auto.
  destruct (val_eqb k k') eqn:E; [apply val_eqb_eq in E; subst; exfalso; auto|].
  rewrite IH; auto.
Qed.
Lemma map_of_nodup_aux l m :
  NoDup (map fst (m ++ l)) -> fold_left (fun m p => map_set (fst p) (snd p) m) l m = m ++ l.
Proof.
  revert m. induction l as [|[k v] l IH]; simpl; intros m H.
  - now rewrite app_nil_r.
  - rewrite map_set_fresh.
    + rewrite IH; rewrite <- app_assoc; auto.
    + rewrite map_app in H. simpl in H. apply NoDup_remove_2 in H. intros Hin. apply H.
      apply in_or_app; auto.
Qed.
Lemma map_of_nodup l : NoDup (map fst l) -> map_of l = l.
Proof. intros H. unfold map_of. now rewrite map_of_nodup_aux. Qed.

(** ** Round trip *)

Lemma dec_many_step {A} (dec : bytes -> res (A * nat * bytes)) n d :
  d <> [] -> dec_many dec (S n) d = do '(v, r, d') <- dec d; do '(vs, r') <- dec_many dec n d'; Ok (v :: vs, (r + r')%nat).
Proof. destruct d; [congruence | reflexivity]. Qed.

Lemma app_ne_l {A} (a b : list A) : a <> [] -> a ++ b <> [].
Proof. destruct a; simpl; congruence. Qed.

Definition max63 : N := 2 ^ 63.
Lemma max63_eq : max63 = 2 ^ 63. Proof. reflexivity. Qed.
Opaque max63.

Section Lists.
  Variable fuel : nat.
  Variable t : ty.
  Variable o : fopts.
  Hypothesis IH : forall v b tail,
    varints_fit t o v -> encode t o v = Ok b -> len b < max63 -> (List.length (b ++ tail) <= fuel)%nat ->
    exists v', decode fuel t o (b ++ tail) = Ok (v', List.length b, tail) /\ veq (visible t v) v'.

  Lemma rt_n l b tail :
    Forall (varints_fit t o) l -> enc_all (encode t o) l = Ok b -> len b < max63 -> (List.length (b ++ tail) <= fuel)%nat ->
    exists l', dec_n (decode fuel t o) (List.length l) (b ++ tail) = Ok (l', List.length b, tail)
               /\ Forall2 veq (map (visible t) l) l'.
  Proof.
    revert b tail. induction l as [|v l IHl]; simpl; intros b tail Hv H Hb Hf.
    - apply Ok_inj in H. subst. exists []. split; [reflexivity | constructor].
    - inv_bind H as a Hb0. inv_bind H as a0 Hb1. apply Ok_inj in H. subst.
      rewrite len_app in Hb. rewrite <- app_assoc in *. inversion Hv as [|? ? Hv1 Hv2]; subst.
      destruct (IH _ _ (a0 ++ tail) Hv1 Hb0) as (v' & E1 & V1); [lia | auto|].
      destruct (IHl _ tail Hv2 Hb1) as (l' & E2 & V2); [lia | rewrite app_length in Hf; lia|].
      rewrite E1. cbn [bind]. rewrite E2. cbn [bind].
      exists (v' :: l'). rewrite app_length. split; [reflexivity|]. constructor; auto.
  Qed.

  Lemma rt_many l b n :
    (forall v b, encode t o v = Ok b -> b <> []) ->
    Forall (varints_fit t o) l -> enc_all (encode t o) l = Ok b -> len b < max63 -> (List.length b <= fuel)%nat -> (List.length b <= n)%nat ->
    exists l', dec_many (decode fuel t o) n b = Ok (l', List.length b)
               /\ Forall2 veq (map (visible t) l) l'.
  Proof.
    intros Hne. revert b n. induction l as [|v l IHl]; simpl; intros b n Hv H Hb Hf Hn.
    - apply Ok_inj in H. subst. exists []. split; [destruct n; reflexivity | constructor].
    - inv_bind H as a Hb0. inv_bind H as a0 Hb1. apply Ok_inj in H. subst.
      rewrite len_app in Hb. rewrite app_length in Hn.
      pose proof (Hne _ _ Hb0) as Hx. 
      assert (1 <= List.length a)%nat by (destruct a; [congruence | simpl; lia]).
      inversion Hv as [|? ? Hv1 Hv2]; subst.
      destruct (IH _ _ a0 Hv1 Hb0) as (v' & E1 & V1); [lia | auto |].
      destruct n as [|n]; [lia|].
      destruct (IHl _ n Hv2 Hb1) as (l' & E2 & V2); [lia | rewrite app_length in Hf; lia | lia|].
      exists (v' :: l'). split; [|constructor; auto].
      rewrite dec_many_step by now apply app_ne_l.
      rewrite E1. cbn [bind]. rewrite E2. cbn [bind]. now rewrite app_length.
  Qed.
End Lists.

Section Pairs.
  Variable fuel : nat.
  Variables k e : ty.
  Hypothesis IHk : forall v b tail,
    varints_fit k null_opts v -> encode k null_opts v = Ok b -> len b < max63 -> (List.length (b ++ tail) <= fuel)%nat ->
    exists v', decode fuel k null_opts (b ++ tail) = Ok (v', List.length b, tail) /\ veq (visible k v) v'.
  Hypothesis IHe : forall v b tail,
    varints_fit e null_opts v -> encode e null_opts v = Ok b -> len b < max63 -> (List.length (b ++ tail) <= fuel)%nat ->
    exists v', decode fuel e null_opts (b ++ tail) = Ok (v', List.length b, tail) /\ veq (visible e v) v'.
  Hypothesis Hkey : key_ty k = true.
  Hypothesis Hne : nonempty k null_opts \/ nonempty e null_opts.

  Lemma rt_pairs l ps n :
    Forall (fun p => varints_fit k null_opts (fst p) /\ varints_fit e null_opts (snd p)) l ->
    Forall2 (fun p q => encode k null_opts (fst p) = Ok (fst q) /\ encode e null_opts (snd p) = Ok (snd q)) l ps ->
    len (flat_pairs ps) < max63 -> (List.length (flat_pairs ps) <= fuel)%nat -> (List.length (flat_pairs ps) <= n)%nat ->
    exists l', dec_many (dec_pair (decode fuel k null_opts) (decode fuel e null_opts)) n (flat_pairs ps)
               = Ok (l', List.length (flat_pairs ps))
      /\ map fst l' = map fst l
      /\ map fst l = map (fun p => visible k (fst p)) l
      /\ Forall2 veq (map (fun p => visible e (snd p)) l) (map snd l').
  Proof.
    intros Hv H. revert n Hv. induction H as [|[kv ev] [bk bv] l ps [H1 H2] HF IHl]; intros n Hv Hb Hf Hn.
    - exists []. repeat split; [destruct n; reflexivity | constructor].
    - inversion Hv as [|? ? [Hv1 Hv2] Hv3]; subst. simpl in H1, H2, Hv1, Hv2. unfold flat_pairs in *. simpl map in *. simpl concat in *.
      fold (flat_pairs ps) in *. rewrite <- !app_assoc in *.
      rewrite !len_app in Hb. rewrite !app_length in Hf, Hn.
      destruct (key_exact) as [KE _]. destruct (KE _ _ _ _ Hkey H1) as [K1 K2].
      destruct (IHk _ _ (bv ++ flat_pairs ps) Hv1 H1) as (k' & Ek & Vk); [lia | rewrite !app_length; lia|].
      rewrite K1 in Vk. apply K2 in Vk. subst k'.
      destruct (IHe _ _ (flat_pairs ps) Hv2 H2) as (v' & Ev & Vv); [lia | rewrite !app_length; lia|].
      assert (1 <= List.length bk + List.length bv)%nat.
      { destruct Hne as [Hx|Hx].
        - apply (proj1 encode_nonempty _ _ _ _ Hx) in H1. destruct bk; [congruence | simpl; lia].
        - apply (proj1 encode_nonempty _ _ _ _ Hx) in H2. destruct bv; [congruence | simpl; lia]. }
      destruct n as [|n]; [lia|].
      destruct (IHl n) as (l' & El & M1 & M2 & M3); [auto | lia..|].
      exists ((kv, v') :: l'). split.
      + rewrite dec_many_step.
        2:{ intros Eaa. apply (f_equal (@List.length byte)) in Eaa. rewrite !app_length in Eaa. simpl in Eaa. lia. }
        unfold dec_pair at 1. rewrite Ek. cbn [bind]. rewrite Ev. cbn [bind].
        rewrite El. cbn [bind]. rewrite !app_length. do 2 f_equal. lia.
      + simpl. repeat split; try congruence. constructor; auto.
  Qed.
End Pairs.

Lemma flat_pairs_perm_len ps qs : Permutation ps qs -> len (flat_pairs ps) = len (flat_pairs qs).
Proof.
  unfold flat_pairs. induction 1; simpl; auto; rewrite ?len_app in *; try lia.
Qed.

Lemma round_trip :
  (forall t last o v b tail fuel,
     delimited last t o -> elems_nonempty t o -> lawful t ->
     varints_fit t o v -> encode t o v = Ok b -> len b < max63 -> (last = true -> tail = []) ->
     (List.length (b ++ tail) <= fuel)%nat ->
     exists v', decode fuel t o (b ++ tail) = Ok (v', List.length b, tail) /\ veq (visible t v) v') /\
  (forall fs last l b tail fuel,
     delimited_fields last fs -> elems_nonempty_fields fs -> lawful_fields fs ->
     varints_fit_fields fs l -> encode_fields fs l = Ok b -> len b < max63 -> (last = true -> tail = []) ->
     (List.length (b ++ tail) <= fuel)%nat ->
     exists l', decode_fields fuel fs (b ++ tail) = Ok (l', List.length b, tail) /\ Forall2 veq (visibles fs l) l').
Proof.
  apply ty_fields_ind.
  - (* uint *)
    intros s last o v b tail fuel _ _ _ V H Hb Ht Hf. simpl in *. destruct v; try discriminate.
    destruct (N.ltb_spec n (256 ^ N.of_nat (usz s))) as [Hn|]; [|discriminate].
    destruct (varint o).
    + pose proof (readVarint_write _ _ tail H) as R. rewrite R. cbn [bind].
      apply writeVarint_len in H. 
      assert (Hs : (usz s <? List.length b)%nat = false).
      { apply Nat.ltb_ge. unfold len in H. unfold varint_size in H. specialize (V eq_refl).
        destruct (N.ltb_spec n 64); [destruct s; simpl; lia|].
        destruct s; simpl usz in V |- *.
        - assert (n < 64) by exact V. lia.
        - assert (n < 16384) by exact V. destruct (N.ltb_spec n 16384); lia.
        - assert (n < 1073741824) by exact V.
          destruct (n <? 16384); [lia|]. destruct (N.ltb_spec n 1073741824); lia.
        - destruct (n <? 16384); [lia|]. destruct (n <? 1073741824); lia. }
      rewrite Hs. rewrite N.mod_small by auto. eexists; split; [reflexivity | constructor].
    + apply Ok_inj in H. subst b.
      rewrite firstn_app_n by (symmetry; apply be_length). rewrite skipn_app_n by (symmetry; apply be_length).
      rewrite be_length, Nat.eqb_refl. simpl negb. cbv iota.
      assert (E : unbe64 (be (usz s) n) mod 256 ^ N.of_nat (usz s) = n).
      { unfold unbe64. rewrite unbe_be_small by auto. rewrite (N.mod_small n (2 ^ 64)).
        - now apply N.mod_small.
        - eapply N.lt_le_trans; [exact Hn|]. destruct s; vm_compute; discriminate. }
      rewrite E. eexists; split; [reflexivity | constructor].
  - (* array *)
    intros n t IH last o v b tail fuel D E L V H Hb Ht Hf. simpl in *. destruct v; try discriminate.
    destruct (Nat.eqb_spec (List.length l) n) as [Hn|]; [|discriminate]. subst n.
    destruct (rt_n fuel t o) with (l := l) (b := b) (tail := tail) as (l' & E1 & V1); auto.
    { intros; eapply IH; eauto. discriminate. }
    rewrite E1. cbn [bind]. eexists; split; [reflexivity | now constructor].
  - (* slice *)
    intros t IH last o v b tail fuel D E L V H Hb Ht Hf. simpl in *. destruct v; try discriminate.
    destruct D as [Do D]. destruct E as [En E].
    inv_bind H as body Hbody. inv_bind H as h Hh. apply Ok_inj in H. subst b.
    rewrite len_app in Hb. rewrite <- app_assoc in *.
    rewrite (decodeLength_encode _ _ _ _ Hh).
    2:{ rewrite <- max63_eq. lia. }
    2:{ intros Ho. rewrite Ht by auto. now rewrite app_nil_r. }
    cbn [bind]. rewrite takeElems_app. cbn [bind].
    rewrite !app_length in Hf.
    destruct (rt_many fuel t o) with (l := l) (b := body) (n := fuel) as (l' & E1 & V1); auto; try lia.
    { intros; eapply IH; eauto. discriminate. }
    { intros v0 b0 Hv0. eapply (proj1 encode_nonempty); eauto. }
    rewrite E1. cbn [bind]. rewrite app_length. eexists; split; [reflexivity | now constructor].
  - (* struct *)
    intros fs IH last o v b tail fuel D E L V H Hb Ht Hf. simpl in *. destruct v; try discriminate.
    destruct (IH _ _ _ tail fuel D E L V H Hb Ht Hf) as (l' & E1 & V1). rewrite E1. cbn [bind].
    eexists; split; [reflexivity | now constructor].
  - (* map *)
    intros k IHk e IHe last o v b tail fuel D E L V H Hb Ht Hf. simpl in *. destruct v; try discriminate.
    destruct (keys_nodup l) eqn:Hnd; [|discriminate].
    destruct D as (Do & Dk & De). destruct E as (En & Ek & Ee). destruct L as (Lk & Lk' & Le).
    inv_bind H as ps Hps. inv_bind H as h Hh. apply Ok_inj in H. subst b.
    set (body := flat_pairs (sort_pairs ps)) in *.
    rewrite len_app in Hb. rewrite <- app_assoc in *.
    rewrite (decodeLength_encode _ _ _ _ Hh).
    2:{ rewrite <- max63_eq. lia. }
    2:{ intros Ho. rewrite Ht by auto. now rewrite app_nil_r. }
    cbn [bind]. rewrite takeElems_app. cbn [bind].
    rewrite !app_length in Hf.
    apply enc_pairs_Forall2 in Hps.
    destruct (Forall2_perm_r _ _ _ _ Hps (sort_pairs_perm ps)) as (l1 & P1 & F1).
    destruct (rt_pairs fuel k e) with (l := l1) (ps := sort_pairs ps) (n := fuel) as (l' & E1 & M1 & M2 & M3); auto; try (unfold body in *; lia).
    3:{ eapply Permutation_Forall; eauto. }
    { intros; eapply IHk; eauto. discriminate. }
    { intros; eapply IHe; eauto. discriminate. }
    fold body in E1. rewrite E1. cbn [bind].
    assert (Hnd' : NoDup (map fst l')).
    { rewrite M1. eapply Permutation_NoDup; [apply Permutation_map, P1|]. now apply keys_nodup_spec. }
    rewrite map_of_nodup by auto. rewrite app_length. eexists; split; [reflexivity|].
    apply (veq_map _ (map (fun p => (visible k (fst p), visible e (snd p))) l1)).
    + now apply Permutation_map.
    + rewrite map_map. simpl. rewrite <- M2, M1. apply Forall2_refl_in. apply Forall_forall. intros; apply veq_refl.
    + rewrite map_map. simpl. auto.
  - (* pointer *)
    intros t IH last o v b tail fuel D E L V H Hb Ht Hf. simpl in *. destruct v; try discriminate.
    + destruct (optional o); [|discriminate]. apply Ok_inj in H. subst b. eexists; split; [reflexivity | constructor].
    + inv_bind H as b1 H1. apply Ok_inj in H. subst b. rewrite len_app in Hb. rewrite <- app_assoc in *.
      rewrite app_length in Hf.
      destruct (IH _ _ _ _ tail fuel D E L V H1) as (v' & E1 & V1); [lia | auto | lia |].
      destruct (optional o).
      * change ([b8 1] ++ b1 ++ tail) with (b8 1 :: b1 ++ tail). cbv iota.
        change (bN (b8 1) =? 0) with false. change (bN (b8 1) =? 1) with true. cbv iota.
        rewrite E1. cbn [bind]. eexists; split; [reflexivity | now constructor].
      * simpl app. rewrite E1. cbn [bind]. eexists; split; [reflexivity | now constructor].
  - (* validator *)
    intros p t IH last o v b tail fuel D E L V H Hb Ht Hf. simpl in *. destruct L as [L Lp].
    destruct (p v) eqn:Hp; [|discriminate].
    destruct (IH _ _ _ _ tail fuel D E L V H Hb Ht Hf) as (v' & E1 & V1). rewrite E1. cbn [bind].
    rewrite (Lp _ _ Hp V1). eexists; split; [reflexivity | auto].
  - (* custom *)
    intros z e d last o v b tail fuel _ _ L V H Hb Ht Hf. simpl in *.
    destruct (e v) eqn:Ev; [|discriminate]. apply Ok_inj in H. subst.
    rewrite (L _ _ tail Ev).
    destruct (Nat.ltb_spec (List.length (b ++ tail)) (List.length b)) as [Hlt|_].
    { rewrite app_length in Hlt. lia. }
    rewrite skipn_app_len. eexists; split; [reflexivity|]. apply veq_refl.
  - (* no field *)
    intros last l b tail fuel _ _ _ V H Hb Ht Hf. simpl in *. destruct l; [|discriminate]. apply Ok_inj in H. subst.
    eexists; split; [reflexivity | constructor].
  - (* fields *)
    intros o t IHt fs IHf last l b tail fuel [Dt Df] [Et Ef] [Lt Lf] V H Hb Ht Hf. simpl in *.
    destruct l as [|v l]; [discriminate|]. destruct V as [Vt Vf].
    destruct (omit o).
    + cbn [bind]. destruct (IHf _ _ _ tail fuel Df Ef Lf Vf H Hb Ht Hf) as (l' & E1 & V1).
      rewrite E1. cbn [bind]. eexists; split; [reflexivity|]. constructor; auto. apply veq_refl.
    + inv_bind H as b1 H1. inv_bind H as b2 H2. apply Ok_inj in H. subst b.
      rewrite len_app in Hb. rewrite <- app_assoc in *.
      destruct (IHt (last && all_omitted fs)%bool o v b1 (b2 ++ tail) fuel) as (v' & E1 & V1); auto; [lia | |].
      { intros Hl. apply andb_true_iff in Hl. destruct Hl as [Hl Ho]. rewrite Ht by auto.
        assert (forall fs l b, all_omitted fs = true -> encode_fields fs l = Ok b -> b = []) as K.
        { clear. induction fs as [|o t fs IH]; simpl; intros l b Ha Hb; destruct l; try discriminate.
          - inv_ok Hb. auto.
          - apply andb_true_iff in Ha. destruct Ha as [Ho Ha]. rewrite Ho in Hb. eauto. }
        rewrite (K _ _ _ Ho H2). reflexivity. }
      rewrite E1. cbn [bind].
      destruct (IHf _ _ _ tail fuel Df Ef Lf Vf H2) as (l' & E2 & V2); [lia | auto | rewrite app_length in Hf; lia |].
      rewrite E2. cbn [bind]. rewrite app_length. eexists; split; [reflexivity | constructor; auto].
Qed.
