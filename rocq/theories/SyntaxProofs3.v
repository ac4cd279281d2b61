(** Order independence, absence of panics, termination and canonicity of the [syntax] codec. *)
From Verif Require Import Base Syntax SyntaxSpec SyntaxVarint SyntaxProofs SyntaxProofs2.
From Coq Require Import Permutation.

(** ** Map order (C05) *)

Lemma blt_irrefl a : blt a a = false.
Proof. induction a as [|x a IH]; simpl; auto. rewrite N.ltb_irrefl. auto. Qed.
Lemma blt_trans a b c : blt a b = true -> blt b c = true -> blt a c = true.
Proof.
  revert b c. induction a as [|x a IH]; intros [|y b] [|z c]; simpl; try discriminate; auto.
  destruct (N.ltb_spec (bN x) (bN y)), (N.ltb_spec (bN y) (bN z)), (N.ltb_spec (bN x) (bN z)),
    (N.ltb_spec (bN y) (bN x)), (N.ltb_spec (bN z) (bN y)), (N.ltb_spec (bN z) (bN x));
    intros; try discriminate; try lia; auto.
  eauto.
Qed.
Lemma blt_total a b : blt a b = false -> blt b a = false -> a = b.
Proof.
  revert b. induction a as [|x a IH]; intros [|y b]; simpl; try discriminate; auto.
  destruct (N.ltb_spec (bN x) (bN y)), (N.ltb_spec (bN y) (bN x)); intros; try discriminate; try lia.
  f_equal; [apply bN_inj; lia | auto].
Qed.
Lemma blt_asym a b : blt a b = true -> blt b a = false.
Proof. intros H. destruct (blt b a) eqn:E; auto. rewrite <- (blt_irrefl a). symmetry. eauto using blt_trans. Qed.

Lemma blt_cotrans a b c : blt a c = true -> blt a b = true \/ blt b c = true.
Proof.
  intros H. destruct (blt a b) eqn:E1; auto. right. destruct (blt b a) eqn:E2; [eauto using blt_trans|].
  rewrite (blt_total _ _ E1 E2) in H. exact H.
Qed.
Lemma insert_comm p q l :
  fst p <> fst q -> insert_pair p (insert_pair q l) = insert_pair q (insert_pair p l).
Proof.
  intros Hne.
  assert (T : (blt (fst p) (fst q) = true /\ blt (fst q) (fst p) = false)
           \/ (blt (fst p) (fst q) = false /\ blt (fst q) (fst p) = true)).
  { destruct (blt (fst p) (fst q)) eqn:E1, (blt (fst q) (fst p)) eqn:E2; auto.
    - apply blt_asym in E1. congruence.
    - exfalso. apply Hne. now apply blt_total. }
  induction l as [|r l IH]; simpl.
  - destruct T as [[-> ->]|[-> ->]]; auto.
  - destruct (blt (fst r) (fst q)) eqn:E1, (blt (fst r) (fst p)) eqn:E2; simpl; rewrite ?E1, ?E2; simpl.
    + f_equal. exact IH.
    + destruct T as [[T1 T2]|[T1 T2]]; rewrite ?T1, ?T2; simpl; rewrite ?E1; auto.
      pose proof (blt_trans _ _ _ E1 T2). congruence.
    + destruct T as [[T1 T2]|[T1 T2]]; rewrite ?T1, ?T2; simpl; rewrite ?E2; auto.
      pose proof (blt_trans _ _ _ E2 T1). congruence.
    + destruct T as [[T1 T2]|[T1 T2]]; rewrite ?T1, ?T2; simpl; rewrite ?E1, ?E2; auto.
Qed.

Lemma sort_pairs_unique l m : Permutation l m -> NoDup (map fst l) -> sort_pairs l = sort_pairs m.
Proof.
  induction 1; intros Hnd; simpl in *; auto.
  - inversion Hnd; subst. f_equal. auto.
  - apply insert_comm. inversion Hnd as [|? ? H1 H2]; subst. simpl in H1. intuition congruence.
  - rewrite IHPermutation1, IHPermutation2; auto.
    eapply Permutation_NoDup; [apply Permutation_map; eassumption | auto].
Qed.

(** Encodings of keys identify the key, even followed by other bytes. *)
Lemma writeVarint_inj u v a b s t :
  writeVarint u = Ok a -> writeVarint v = Ok b -> a ++ s = b ++ t -> u = v /\ s = t.
Proof.
  intros H1 H2 E. apply (readVarint_write _ _ s) in H1. apply (readVarint_write _ _ t) in H2.
  rewrite E, H2 in H1. inv_ok H1. auto.
Qed.

Lemma app_inj_len {A} (a b s t : list A) : List.length a = List.length b -> a ++ s = b ++ t -> a = b /\ s = t.
Proof.
  revert b. induction a as [|x a IH]; intros [|y b] Hl E; simpl in *; try discriminate; auto.
  injection E as -> E. injection Hl as Hl. destruct (IH _ Hl E). subst; auto.
Qed.

Lemma key_inj :
  (forall t o v w a b s u, key_ty t = true -> encode t o v = Ok a -> encode t o w = Ok b -> a ++ s = b ++ u -> v = w /\ s = u) /\
  (forall fs l m a b s u, key_fields fs = true -> encode_fields fs l = Ok a -> encode_fields fs m = Ok b -> a ++ s = b ++ u -> l = m /\ s = u).
Proof.
  apply ty_fields_ind; simpl; try discriminate.
  - intros s o v w a b x y _ H1 H2 E. destruct v; try discriminate. destruct w; try discriminate.
    destruct (N.ltb_spec n (256 ^ N.of_nat (usz s))) as [Hn|]; [|discriminate].
    destruct (N.ltb_spec n0 (256 ^ N.of_nat (usz s))) as [Hn0|]; [|discriminate].
    destruct (varint o).
    + destruct (writeVarint_inj _ _ _ _ _ _ H1 H2 E). subst; auto.
    + inv_ok H1. inv_ok H2. apply app_inj_len in E; [|now rewrite !be_length]. destruct E as [E ->].
      apply be_inj in E; auto. subst; auto.
  - intros n t IH o v w a b x y Hk H1 H2 E. destruct v; try discriminate. destruct w; try discriminate.
    destruct (Nat.eqb_spec (List.length l) n); [|discriminate]. destruct (Nat.eqb_spec (List.length l0) n); [|discriminate]. subst n.
    assert (K : l = l0 /\ x = y); [|destruct K; subst; auto].
    revert l0 e0 a b H1 H2 E. induction l as [|v l IHl]; intros [|w l0] e0 a b H1 H2 E; simpl in *; try discriminate.
    + inv_ok H1. inv_ok H2. auto.
    + inv_bind H1 as a1 Ha1. inv_bind H1 as a2 Ha2. inv_bind H2 as b1 Hb1. inv_bind H2 as b2 Hb2. inv_ok H1. inv_ok H2.
      rewrite <- !app_assoc in E. destruct (IH _ _ _ _ _ _ _ Hk Ha1 Hb1 E) as [-> E2].
      destruct (IHl _ (eq_add_S _ _ e0) _ _ Ha2 Hb2 E2) as [-> ->]. auto.
  - intros fs IH o v w a b x y Hk H1 H2 E. destruct v; try discriminate. destruct w; try discriminate.
    destruct (IH _ _ _ _ _ _ Hk H1 H2 E). subst; auto.
  - intros l m a b x y _ H1 H2 E. destruct l; [|discriminate]. destruct m; [|discriminate]. inv_ok H1. inv_ok H2. auto.
  - intros o t IHt fs IHf l m a b x y Hk H1 H2 E. destruct l as [|v l]; [discriminate|]. destruct m as [|w m]; [discriminate|].
    apply andb_true_iff in Hk. destruct Hk as [Hk Hkf]. apply andb_true_iff in Hk. destruct Hk as [Ho Hkt].
    apply negb_true_iff in Ho. rewrite Ho in *.
    inv_bind H1 as a1 Ha1. inv_bind H1 as a2 Ha2. inv_bind H2 as b1 Hb1. inv_bind H2 as b2 Hb2. inv_ok H1. inv_ok H2.
    rewrite <- !app_assoc in E. destruct (IHt _ _ _ _ _ _ _ Hkt Ha1 Hb1 E) as [-> E2].
    destruct (IHf _ _ _ _ _ _ Hkf Ha2 Hb2 E2) as [-> ->]. auto.
Qed.

Lemma key_encodings_nodup k e l ps :
  key_ty k = true ->
  Forall2 (fun p q => encode k null_opts (fst p) = Ok (fst q) /\ encode e null_opts (snd p) = Ok (snd q)) l ps ->
  NoDup (map fst l) -> NoDup (map fst ps).
Proof.
  intros Hk. induction 1 as [|p q l ps [H1 _] HF IH]; simpl; intros Hnd; [constructor|].
  inversion Hnd as [|? ? Hnin Hnd']; subst. constructor; auto.
  intros Hin. apply Hnin. clear - Hin HF H1 Hk.
  induction HF as [|p' q' l ps [H1' _] HF IH]; simpl in *; [contradiction|].
  destruct Hin as [E|Hin]; [left|right; auto].
  assert (K : fst p = fst p' /\ @nil byte = []).
  { apply (proj1 key_inj k null_opts (fst p) (fst p') _ _ [] [] Hk H1 H1'). now rewrite E. }
  symmetry. apply K.
Qed.

Lemma Forall2_len {A B} (R : A -> B -> Prop) l m : Forall2 R l m -> List.length l = List.length m.
Proof. induction 1; simpl; auto. Qed.

Lemma Forall2_flip {A B} (R : A -> B -> Prop) l m : Forall2 R l m -> Forall2 (fun b a => R a b) m l.
Proof. induction 1; auto. Qed.

Lemma encode_veq :
  (forall t o v v' b, order_blind t -> veq v v' -> encode t o v = Ok b -> encode t o v' = Ok b) /\
  (forall fs l l' b, order_blind_fields fs -> Forall2 veq l l' -> encode_fields fs l = Ok b -> encode_fields fs l' = Ok b).
Proof.
  assert (KL : forall t o l l' b, (forall v v' b, veq v v' -> encode t o v = Ok b -> encode t o v' = Ok b) ->
     Forall2 veq l l' -> enc_all (encode t o) l = Ok b -> enc_all (encode t o) l' = Ok b).
  { intros t o l l' b IH HF. revert b. induction HF as [|v v' l l' Hv _ IHl]; simpl; intros b H; auto.
    inv_bind H as b1 H1. inv_bind H as b2 H2. inv_ok H. rewrite (IH _ _ _ Hv H1). cbn [bind]. rewrite (IHl _ H2). reflexivity. }
  apply ty_fields_ind; simpl.
  - intros s o v v' b _ V H. inversion V; subst; auto; discriminate.
  - intros n t IH o v v' b O V H. inversion V; subst; try discriminate.
    rewrite <- (Forall2_len _ _ _ H0). destruct (_ =? _)%nat; [|discriminate]. eapply KL; eauto.
  - intros t IH o v v' b O V H. inversion V; subst; try discriminate.
    inv_bind H as body Hb. rewrite (KL _ _ _ _ _ (fun v v' b => IH o v v' b O) H0 Hb). exact H.
  - intros fs IH o v v' b O V H. inversion V; subst; try discriminate. eauto.
  - intros k IHk e IHe o v v' b [Hk O] V H.
    destruct V as [n|l m HF|l l1 m P F1 F2| |v w Hv]; try discriminate.
    destruct (keys_nodup l) eqn:Hnd; [|discriminate]. apply keys_nodup_spec in Hnd.
    inv_bind H as ps Hps. inv_bind H as h Hh. inv_ok H.
    apply enc_pairs_Forall2 in Hps.
    assert (HP : exists ps1, Permutation ps ps1 /\
      Forall2 (fun p q => encode k null_opts (fst p) = Ok (fst q) /\ encode e null_opts (snd p) = Ok (snd q)) l1 ps1).
    { apply Forall2_flip in Hps. destruct (Forall2_perm_r _ _ _ _ Hps P) as (ps1 & P1 & F).
      exists ps1. split; auto. now apply Forall2_flip in F. }
    destruct HP as (ps1 & Pps & F).
    assert (Em : map fst m = map fst l1 /\ Forall2 (fun p q => encode k null_opts (fst p) = Ok (fst q) /\ encode e null_opts (snd p) = Ok (snd q)) m ps1).
    { clear - F F1 F2 Hk IHe O. revert m F1 F2. induction F as [|p q l1 ps1 [H1 H2] _ IH]; intros [|r m] F1 F2; simpl in *;
        inversion F1; inversion F2; subst; auto.
      destruct (IH _ H6 H12) as [E1 E2].
      assert (E0 : fst r = fst p).
      { destruct (proj1 key_exact _ _ _ _ Hk H1) as [_ K]. auto. }
      split; [simpl; congruence|]. constructor; auto. rewrite E0. split; auto. eapply IHe; eauto. }
    destruct Em as [Em1 Em2].
    assert (Hnd' : keys_nodup m = true).
    { apply keys_nodup_spec. rewrite Em1. eapply Permutation_NoDup; [apply Permutation_map, P | auto]. }
    rewrite Hnd'. apply enc_pairs_Forall2 in Em2. rewrite Em2. cbn [bind].
    rewrite <- (sort_pairs_unique ps ps1); auto.
    + rewrite Hh. reflexivity.
    + eapply key_encodings_nodup; eauto.
  - intros t IH o v v' b O V H. inversion V; subst; try discriminate; auto.
    inv_bind H as b1 H1. inv_ok H. rewrite (IH _ _ _ _ O H0 H1). reflexivity.
  - intros p t IH o v v' b [O Hp] V H. destruct (p v) eqn:E; [|discriminate]. rewrite (Hp _ _ V E). eauto.
  - intros z e d o v v' b O V H. now rewrite <- (O _ _ V).
  - intros l l' b _ V H. inversion V; subst; auto.
  - intros o t IHt fs IHf l l' b [Ot Of] V H. inversion V as [|v v' l0 l0' V1 V2]; subst; auto.
    destruct (omit o); [eauto|].
    inv_bind H as b1 H1. inv_bind H as b2 H2. inv_ok H.
    rewrite (IHt _ _ _ _ (Ot eq_refl) V1 H1). cbn [bind]. rewrite (IHf _ _ _ Of V2 H2). reflexivity.
Qed.

(** ** No panic without optional pointers (C06) *)

Definition no_panic {A} (r : res A) := r <> Panic.
Lemma no_panic_bind {A B} (x : res A) (f : A -> res B) :
  no_panic x -> (forall a, x = Ok a -> no_panic (f a)) -> no_panic (bind x f).
Proof. unfold no_panic. intros H1 H. destruct x; simpl; auto; congruence. Qed.
Lemma no_panic_Ok {A} (a : A) : no_panic (Ok a). Proof. discriminate. Qed.
Lemma no_panic_Err {A} e : no_panic (@Err A e). Proof. discriminate. Qed.
Lemma no_panic_Fuel {A} : no_panic (@Fuel A). Proof. discriminate. Qed.
#[export] Hint Resolve no_panic_Ok no_panic_Err no_panic_Fuel : nopanic.
Ltac np := repeat first [solve [auto with nopanic] | exact (readVarint_no_panic _) | apply no_panic_bind | progress intros
  | match goal with p : (_ * _)%type |- _ => destruct p end
  | match goal with |- no_panic (if ?b then _ else _) => destruct b end].

Lemma decodeLength_no_panic d o : no_panic (decodeLength d o).
Proof. unfold decodeLength. np. Qed.

Lemma dec_many_no_panic {A} (dec : bytes -> res (A * nat * bytes)) n d :
  (forall d, no_panic (dec d)) -> no_panic (dec_many dec n d).
Proof.
  intros H. revert d. induction n as [|n IH]; intros [|b d]; simpl; np.
Qed.

Lemma decode_no_panic :
  (forall t o fuel d, no_optional t o -> no_panic (decode fuel t o d)) /\
  (forall fs fuel d, no_optional_fields fs -> no_panic (decode_fields fuel fs d)).
Proof.
  assert (T : forall L d o r d', decodeLength d o = Ok (r, L, d') -> (0 <= minSize o)%Z -> no_panic (takeElems L d')).
  { intros L d o r d' H Hm. apply decodeLength_prefix in H. destruct H as (_ & _ & _ & _ & _ & _ & H).
    unfold takeElems. destruct (Z.ltb_spec L 0); [lia|]. destruct (_ <? _)%Z; np. }
  apply ty_fields_ind; simpl.
  - intros s o fuel d _. np.
  - intros n t IH o fuel d H. apply no_panic_bind; [|np]. revert d. induction n as [|n IHn]; simpl; intros d; np.
  - intros t IH o fuel d [Hm H]. apply no_panic_bind; [apply decodeLength_no_panic|]. intros [[r L] d1] H1.
    apply no_panic_bind; [eapply T; eauto|]. intros [ed d2] _. apply no_panic_bind; [|np].
    apply dec_many_no_panic. auto.
  - intros fs IH o fuel d H. np.
  - intros k IHk e IHe o fuel d (Hm & Hk & He). apply no_panic_bind; [apply decodeLength_no_panic|]. intros [[r L] d1] H1.
    apply no_panic_bind; [eapply T; eauto|]. intros [ed d2] _. apply no_panic_bind; [|np].
    apply dec_many_no_panic. intros. unfold dec_pair. np.
  - intros t IH o fuel d [Ho H]. rewrite Ho. np.
  - intros p t IH o fuel d H. np.
  - intros z e dc o fuel d _. destruct (dc d) as [[v r]|]; np.
  - intros fuel d _. np.
  - intros o t IHt fs IHf fuel d [Ht Hf]. apply no_panic_bind; [destruct (omit o); np|]. np.
Qed.

(** ** Termination (C07) *)

Lemma decode_consumes :
  (forall t o fuel d v r rest, nonempty t o -> decode fuel t o d = Ok (v, r, rest) -> (1 <= r)%nat) /\
  (forall fs fuel d l r rest, nonempty_fields fs -> decode_fields fuel fs d = Ok (l, r, rest) -> (1 <= r)%nat).
Proof.
  apply ty_fields_ind; simpl.
  - intros s o fuel d v r rest _ H. destruct (varint o).
    + inv_bind H as [[l u] d1] H1. destruct (_ <? _)%nat; [discriminate|]. inv_ok H.
      apply readVarint_prefix in H1. destruct H1 as (pre & E & El & Hr & _). lia.
    + destruct (Nat.eqb_spec (List.length (firstn (usz s) d)) (usz s)) as [E|]; [|discriminate]. simpl in H. inv_ok H.
      rewrite E. destruct s; simpl; lia.
  - intros n t IH o fuel d v r rest [Hn H0] H. inv_bind H as [[l r1] d1] H1. inv_ok H.
    destruct n as [|n]; [congruence|]. simpl in H1. inv_bind H1 as [[v1 r1] d2] H2. inv_bind H1 as [[l2 r2] d3] H3. inv_ok H1.
    apply IH in H2; auto. lia.
  - intros t IH o fuel d v r rest Hn H. inv_bind H as [[rd L] d1] H1. inv_bind H as [ed d2] H2.
    inv_bind H as [l r1] H3. inv_ok H.
    apply decodeLength_prefix in H1. destruct H1 as (pre & E & <- & _ & Ho & _ & Hm).
    destruct Hn as [Hn|Hn]; [destruct (Ho Hn); lia|].
    apply takeElems_Ok in H2. destruct H2 as [-> ->].
    apply dec_many_read in H3; [|apply decode_read]. unfold len in Hm. lia.
  - intros fs IH o fuel d v r rest Hn H. inv_bind H as [[l r1] d1] H1. inv_ok H. eauto.
  - intros k IHk e IHe o fuel d v r rest Hn H. inv_bind H as [[rd L] d1] H1. inv_bind H as [ed d2] H2.
    inv_bind H as [l r1] H3. inv_ok H.
    apply decodeLength_prefix in H1. destruct H1 as (pre & E & <- & _ & Ho & _ & Hm).
    destruct Hn as [Hn|Hn]; [destruct (Ho Hn); lia|].
    apply takeElems_Ok in H2. destruct H2 as [-> ->].
    apply dec_many_read in H3.
    2:{ unfold dec_pair. intros d0 v0 r0 rest0 H0. inv_bind H0 as [[k1 rk] dk] Hk. inv_bind H0 as [[e1 re] de] He. inv_ok H0.
        apply decode_read in Hk. apply decode_read in He. destruct Hk as (p1 & -> & <-). destruct He as (p2 & -> & <-).
        exists (p1 ++ p2). rewrite app_assoc, app_length. auto. }
    unfold len in Hm. lia.
  - intros t IH o fuel d v r rest Hn H. destruct (optional o).
    + destruct d as [|b d]; [discriminate|]. destruct (bN b =? 0); [inv_ok H; auto|].
      destruct (bN b =? 1); [|discriminate]. inv_bind H as [[v1 r1] d1] H1. inv_ok H. lia.
    + destruct Hn as [?|Hn]; [discriminate|]. inv_bind H as [[v1 r1] d1] H1. inv_ok H. eauto.
  - intros p t IH o fuel d v r rest Hn H. inv_bind H as [[v1 r1] d1] H1. destruct (p v1); [|discriminate]. inv_ok H. eauto.
  - intros z e dc o fuel d v r rest [_ Hn] H. destruct (dc d) as [[v1 r1]|] eqn:E; [|discriminate].
    destruct (_ <? _)%nat; [discriminate|]. inv_ok H. apply Hn in E. lia.
  - intros fuel d l r rest [].
  - intros o t IHt fs IHf fuel d l r rest Hn H. inv_bind H as [[v1 r1] d1] H1. inv_bind H as [[l2 r2] d2] H2. inv_ok H.
    destruct Hn as [[Ho Hn]|Hn].
    + rewrite Ho in H1. apply IHt in H1; auto. lia.
    + apply IHf in H2; auto. lia.
Qed.

Definition no_fuel {A} (r : res A) := r <> Fuel.
Lemma no_fuel_bind {A B} (x : res A) (f : A -> res B) :
  no_fuel x -> (forall a, x = Ok a -> no_fuel (f a)) -> no_fuel (bind x f).
Proof. unfold no_fuel. intros H1 H. destruct x; simpl; auto; congruence. Qed.
Lemma no_fuel_Ok {A} (a : A) : no_fuel (Ok a). Proof. discriminate. Qed.
Lemma no_fuel_Err {A} e : no_fuel (@Err A e). Proof. discriminate. Qed.
Lemma no_fuel_Panic {A} : no_fuel (@Panic A). Proof. discriminate. Qed.
#[export] Hint Resolve no_fuel_Ok no_fuel_Err no_fuel_Panic : nofuel.
Ltac nf := repeat first [solve [auto with nofuel] | exact (readVarint_no_fuel _) | apply no_fuel_bind | progress intros
  | match goal with p : (_ * _)%type |- _ => destruct p end
  | match goal with |- no_fuel (if ?b then _ else _) => destruct b end].

Lemma decodeLength_no_fuel d o : no_fuel (decodeLength d o).
Proof. unfold decodeLength. nf. Qed.
Lemma takeElems_no_fuel L d : no_fuel (takeElems L d).
Proof. unfold takeElems. nf. Qed.

Lemma dec_many_no_fuel {A} (dec : bytes -> res (A * nat * bytes)) n m d :
  (forall d, (List.length d <= m)%nat -> no_fuel (dec d)) ->
  (forall d v r rest, dec d = Ok (v, r, rest) -> exists pre, d = pre ++ rest /\ List.length pre = r /\ (1 <= r)%nat) ->
  (List.length d <= n)%nat -> (List.length d <= m)%nat -> no_fuel (dec_many dec n d).
Proof.
  intros H1 H2. revert d. induction n as [|n IH]; intros [|b d] Hn Hm; simpl in *; try (nf; fail); try lia.
  apply no_fuel_bind; [apply H1; simpl; lia|].
  intros [[v r] d'] E. apply H2 in E. destruct E as (pre & E & <- & Hr).
  apply (f_equal (@List.length byte)) in E. rewrite app_length in E. simpl in E.
  apply no_fuel_bind; [apply IH; lia|]. intros [vs r'] _. nf.
Qed.

Lemma decode_no_fuel :
  (forall t o fuel d, elems_nonempty t o -> (List.length d <= fuel)%nat -> no_fuel (decode fuel t o d)) /\
  (forall fs fuel d, elems_nonempty_fields fs -> (List.length d <= fuel)%nat -> no_fuel (decode_fields fuel fs d)).
Proof.
  assert (L : forall a b : bytes, (List.length a <= List.length (a ++ b))%nat /\ (List.length b <= List.length (a ++ b))%nat)
    by (intros; rewrite app_length; lia).
  apply ty_fields_ind; simpl.
  - intros s o fuel d _ _. nf.
  - intros n t IH o fuel d E Hf. apply no_fuel_bind; [|nf].
    revert d Hf. induction n as [|n IHn]; simpl; intros d Hf; [nf|].
    apply no_fuel_bind; [auto|]. intros [[v r] d'] H1. apply decode_read in H1. destruct H1 as (pre & -> & _).
    pose proof (L pre d'). apply no_fuel_bind; [apply IHn; lia | nf].
  - intros t IH o fuel d [En E] Hf. apply no_fuel_bind; [apply decodeLength_no_fuel|].
    intros [[rd Len] d1] H1. apply no_fuel_bind; [apply takeElems_no_fuel|]. intros [ed d2] H2.
    apply decodeLength_prefix in H1. destruct H1 as (pre & -> & _). apply takeElems_Ok in H2. destruct H2 as [-> _].
    rewrite !app_length in Hf.
    apply no_fuel_bind; [|nf]. apply dec_many_no_fuel with (m := fuel); try lia; auto.
    intros d v r rest H. pose proof (proj1 decode_consumes _ _ _ _ _ _ _ En H).
    apply decode_read in H. destruct H as (p & -> & <-). eauto.
  - intros fs IH o fuel d E Hf. apply no_fuel_bind; [auto | nf].
  - intros k IHk e IHe o fuel d (En & Ek & Ee) Hf. apply no_fuel_bind; [apply decodeLength_no_fuel|].
    intros [[rd Len] d1] H1. apply no_fuel_bind; [apply takeElems_no_fuel|]. intros [ed d2] H2.
    apply decodeLength_prefix in H1. destruct H1 as (pre & -> & _). apply takeElems_Ok in H2. destruct H2 as [-> _].
    rewrite !app_length in Hf.
    apply no_fuel_bind; [|nf]. apply dec_many_no_fuel with (m := fuel); try lia.
    + intros d Hd. unfold dec_pair. apply no_fuel_bind; [auto|]. intros [[kv r] d'] Hk.
      apply decode_read in Hk. destruct Hk as (p & -> & _). pose proof (L p d').
      apply no_fuel_bind; [apply IHe; auto; lia | nf].
    + unfold dec_pair. intros d v r rest H. inv_bind H as [[k1 rk] dk] Hk. inv_bind H as [[e1 re] de] He. inv_ok H.
      assert (1 <= rk + re)%nat.
      { destruct En as [En|En].
        - apply (proj1 decode_consumes _ _ _ _ _ _ _ En) in Hk. lia.
        - apply (proj1 decode_consumes _ _ _ _ _ _ _ En) in He. lia. }
      apply decode_read in Hk. apply decode_read in He. destruct Hk as (p1 & -> & <-). destruct He as (p2 & -> & <-).
      exists (p1 ++ p2). rewrite app_assoc, app_length. auto.
  - intros t IH o fuel d E Hf. destruct (optional o).
    + destruct d as [|b d]; [nf|]. simpl in Hf. destruct (bN b =? 0); [nf|]. destruct (bN b =? 1); [|nf].
      apply no_fuel_bind; [apply IH; auto; lia | nf].
    + apply no_fuel_bind; [auto | nf].
  - intros p t IH o fuel d E Hf. apply no_fuel_bind; [auto|]. nf.
  - intros z e dc o fuel d _ _. destruct (dc d) as [[v r]|]; nf.
  - intros fuel d _ _. nf.
  - intros o t IHt fs IHf fuel d [Et Ef] Hf. apply no_fuel_bind.
    + destruct (omit o); nf.
    + intros [[v r] d'] H1. assert (List.length d' <= fuel)%nat.
      { destruct (omit o); [inv_ok H1; auto|]. apply decode_read in H1. destruct H1 as (p & -> & _). pose proof (L p d'). lia. }
      apply no_fuel_bind; [auto | nf].
Qed.

(** ** Canonicity (C08) *)

Lemma unbe64_small l : (List.length l <= 8)%nat -> unbe64 l = unbe l.
Proof.
  intros H. unfold unbe64. apply N.mod_small. eapply N.lt_le_trans; [apply unbe_lt|].
  change (2 ^ 64) with (256 ^ 8). apply N.pow_le_mono_r; unfold len; lia.
Qed.

Lemma decodeLength_canonical d o rd L d' :
  (omitHeader o = false -> varintHeader o = false /\ (headerSize o <= 8)%Z) ->
  decodeLength d o = Ok (rd, L, d') -> (0 <= L)%Z ->
  encodeLength (Z.to_N L) o = Ok (firstn rd d).
Proof.
  intros Hc H HL. unfold decodeLength in H. inv_bind H as [[r0 L0] d0] H1.
  destruct ((0 <? maxSize o) && (maxSize o <? L0))%Z eqn:E1; [discriminate|].
  destruct (L0 <? minSize o)%Z eqn:E2; [discriminate|]. inv_ok H.
  unfold encodeLength. rewrite Z2N.id by auto. rewrite E1, E2.
  destruct (omitHeader o); [inv_ok H1; reflexivity|].
  destruct Hc as [Hv Hh]; auto. rewrite Hv in *.
  destruct (Z.ltb_spec 0 (headerSize o)) as [H0|]; [|discriminate].
  set (n := Z.to_nat (headerSize o)) in *.
  destruct (Nat.eqb_spec (List.length (firstn n d)) n) as [En|]; [|discriminate]. simpl in H1. inv_ok H1.
  rewrite unbe64_small in * by lia.
  pose proof (unbe_lt (firstn n d)) as Hlt. unfold len in Hlt. rewrite En in Hlt.
  unfold to_int in *. destruct (N.ltb_spec (unbe (firstn n d)) (2 ^ 63)) as [H63|H63].
  - rewrite N2Z.id.
    destruct (0 <? Z.shiftr (Z.of_N (unbe (firstn n d))) (8 * headerSize o))%Z eqn:E3.
    + exfalso. rewrite Z.shiftr_div_pow2 in E3 by lia. rewrite Z.div_small in E3; [lia|]. split; [lia|].
      rewrite <- zpow256 by lia.
      assert (Ek : Z.of_N (256 ^ N.of_nat n) = (256 ^ headerSize o)%Z).
      { rewrite N2Z.inj_pow. f_equal. lia. }
      lia.
    + f_equal. rewrite <- En at 1. apply be_unbe.
  - exfalso. assert (256 ^ N.of_nat n <= 256 ^ 8) by (apply N.pow_le_mono_r; lia).
    change (256 ^ 8) with (2 ^ 64) in H. change (2 ^ 64) with 18446744073709551616 in H. 
    change (2 ^ 64)%Z with 18446744073709551616%Z in HL. lia.
Qed.

Lemma dec_many_canonical t o fuel n d l r :
  (forall d v r rest, decode fuel t o d = Ok (v, r, rest) -> encode t o v = Ok (firstn r d)) ->
  dec_many (decode fuel t o) n d = Ok (l, r) -> enc_all (encode t o) l = Ok d.
Proof.
  intros IH. revert d l r. induction n as [|n IHn]; intros d l r H; (destruct d as [|b d]; [simpl in H; inv_ok H; reflexivity|]).
  - discriminate.
  - rewrite dec_many_step in H by discriminate.
    inv_bind H as [[v1 r1] d1] H1. inv_bind H as [l2 r2] H2. inv_ok H.
    pose proof (IH _ _ _ _ H1) as E1. apply decode_read in H1. destruct H1 as (p1 & E & <-). rewrite E in *.
    rewrite firstn_app_len in E1. simpl. rewrite E1. cbn [bind]. rewrite (IHn _ _ _ H2). reflexivity.
Qed.

Lemma decode_canonical :
  (forall t o fuel d v r rest, fixed_form t o -> decode fuel t o d = Ok (v, r, rest) -> encode t o v = Ok (firstn r d)) /\
  (forall fs fuel d l r rest, fixed_form_fields fs -> decode_fields fuel fs d = Ok (l, r, rest) -> encode_fields fs l = Ok (firstn r d)).
Proof.
  apply ty_fields_ind; simpl.
  - intros s o fuel d v r rest Hv H. rewrite Hv in *.
    destruct (Nat.eqb_spec (List.length (firstn (usz s) d)) (usz s)) as [E|]; [|discriminate]. simpl in H. inv_ok H.
    rewrite unbe64_small by (rewrite E; destruct s; simpl; lia).
    pose proof (unbe_lt (firstn (usz s) d)) as Hlt. unfold len in Hlt. rewrite E in Hlt.
    rewrite N.mod_small by auto. apply N.ltb_lt in Hlt. rewrite Hlt. f_equal.
    rewrite <- E at 1. rewrite be_unbe. now rewrite E.
  - intros n t IH o fuel d v r rest F H. inv_bind H as [[l r1] d1] H1. inv_ok H.
    assert (K : List.length l = n /\ enc_all (encode t o) l = Ok (firstn r d)).
    { revert d l r H1. induction n as [|n IHn]; simpl; intros d l r H1; [inv_ok H1; auto|].
      inv_bind H1 as [[v1 r1] d2] H2. inv_bind H1 as [[l2 r2] d3] H3. inv_ok H1.
      pose proof (IH _ _ _ _ _ _ F H2) as E1. apply decode_read in H2. destruct H2 as (p1 & -> & <-).
      rewrite firstn_app_len in E1. apply IHn in H3. destruct H3 as [<- E2].
      split; auto. simpl. rewrite E1. cbn [bind]. rewrite E2. cbn [bind]. now rewrite firstn_app_2. }
    destruct K as [-> K]. now rewrite Nat.eqb_refl.
  - intros t IH o fuel d v r rest [Fo F] H. inv_bind H as [[rd L] d1] H1. inv_bind H as [ed d2] H2.
    inv_bind H as [l r1] H3. inv_ok H.
    pose proof (decodeLength_canonical _ _ _ _ _ Fo H1) as Hl.
    apply decodeLength_prefix in H1. destruct H1 as (pre & -> & <- & _).
    apply takeElems_Ok in H2. destruct H2 as [-> ->].
    rewrite N2Z.id, firstn_app_len in Hl.
    pose proof (dec_many_read _ _ _ _ _ (proj1 decode_read t o fuel) H3) as ->.
    apply dec_many_canonical in H3; [|intros; eapply IH; eauto].
    rewrite H3. cbn [bind]. rewrite Hl by lia. cbn [bind].
    f_equal. rewrite firstn_app_2. now rewrite firstn_app_len.
  - intros fs IH o fuel d v r rest F H. inv_bind H as [[l r1] d1] H1. inv_ok H. eauto.
  - intros k _ e _ o fuel d v r rest [].
  - intros t IH o fuel d v r rest F H. destruct (optional o) eqn:Eo.
    + destruct d as [|b d]; [discriminate|]. destruct (N.eqb_spec (bN b) 0) as [E0|_].
      * inv_ok H. simpl. rewrite <- (b8_bN b), E0. reflexivity.
      * destruct (N.eqb_spec (bN b) 1) as [E1|]; [|discriminate]. inv_bind H as [[v1 r1] d1] H1. inv_ok H.
        rewrite (IH _ _ _ _ _ _ F H1). cbn [bind]. simpl. rewrite <- (b8_bN b), E1. reflexivity.
    + inv_bind H as [[v1 r1] d1] H1. inv_ok H. rewrite (IH _ _ _ _ _ _ F H1). reflexivity.
  - intros p t IH o fuel d v r rest F H. inv_bind H as [[v1 r1] d1] H1. destruct (p v1) eqn:Hp; [|discriminate]. inv_ok H.
    rewrite Hp. eauto.
  - intros z e dc o fuel d v r rest F H. destruct (dc d) as [[v1 r1]|] eqn:E; [|discriminate].
    destruct (Nat.ltb_spec (List.length d) r1); [discriminate|]. inv_ok H. rewrite (F _ _ _ E) by lia. reflexivity.
  - intros fuel d l r rest _ H. inv_ok H. reflexivity.
  - intros o t IHt fs IHf fuel d l r rest [Ft Ff] H. inv_bind H as [[v1 r1] d1] H1. inv_bind H as [[l2 r2] d2] H2. inv_ok H.
    apply IHf in H2; auto. destruct (omit o).
    + inv_ok H1. auto.
    + pose proof (IHt _ _ _ _ _ _ (Ft eq_refl) H1) as E1. apply decode_read in H1. destruct H1 as (p1 & -> & <-).
      rewrite firstn_app_len in E1. rewrite E1. cbn [bind]. rewrite H2. cbn [bind]. now rewrite firstn_app_2.
Qed.
