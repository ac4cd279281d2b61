(** Struct tags are read as they are written (C65). *)
From Coq Require Import Ascii.
From Verif Require Import Base Syntax Messages Handshake Cookie Tags TagSpec.
Local Open Scope string_scope.

(** ** Splitting *)

Fixpoint joinc (c : Ascii.ascii) (l : list string) : string := match l with [] => "" | [t] => t | t :: l => t ++ String c (joinc c l) end.
Lemma joinc_join l : joinc ","%char l = join l.
Proof. induction l as [|t [|t' l] IH]; auto. change (t ++ String ","%char (joinc ","%char (t' :: l)) = t ++ String ","%char (join (t' :: l))). now rewrite IH. Qed.
Lemma split_ne c s : split c s <> [].
Proof. destruct s as [|x s]; [discriminate|]. cbn. destruct (Ascii.eqb x c); [discriminate|]. destruct (split c s); discriminate. Qed.
Lemma split_spec c s : joinc c (split c s) = s /\ Forall (lacks c) (split c s).
Proof.
  induction s as [|x s [I1 I2]]; [split; [reflexivity|repeat constructor]|]. cbn. pose proof (split_ne c s) as Ne.
  destruct (Ascii.eqb x c) eqn:E.
  - apply Ascii.eqb_eq in E as ->. split; [|now constructor]. destruct (split c s) as [|t l]; [easy|].
    change (String c (joinc c (t :: l)) = String c s). now rewrite I1.
  - apply Ascii.eqb_neq in E. destruct (split c s) as [|t l]; [easy|]. inversion I2; subst. split; [|constructor; [now split|auto]].
    destruct l as [|t' l]; [cbn; now f_equal|]. change (String x (joinc c (t :: t' :: l)) = String x (joinc c (t :: t' :: l))). reflexivity.
Qed.
Lemma split_lacks c s : lacks c s -> split c s = [s].
Proof. induction s as [|x s IH]; intros H; [reflexivity|]. destruct H as [H1 H2]. cbn. apply Ascii.eqb_neq in H1. now rewrite H1, (IH H2). Qed.
Lemma split_app c s t : lacks c s -> split c (s ++ String c t) = s :: split c t.
Proof. induction s as [|x s IH]; intros H; cbn; [now rewrite Ascii.eqb_refl|]. destruct H as [H1 H2]. apply Ascii.eqb_neq in H1. now rewrite H1, (IH H2). Qed.
Lemma split_join c l : l <> [] -> Forall (lacks c) l -> split c (joinc c l) = l.
Proof.
  induction l as [|t [|t' l] IH]; intros Hn H; [easy| |]; inversion H; subst.
  - now apply split_lacks.
  - change (split c (t ++ String c (joinc c (t' :: l))) = t :: t' :: l). rewrite split_app by auto. f_equal. now apply IH.
Qed.

(** ** Numbers *)

Lemma app_nil_s s : s ++ "" = s.
Proof. induction s; cbn; congruence. Qed.
Lemma app_assoc_s s t u : (s ++ t) ++ u = s ++ t ++ u.
Proof. induction s; cbn; congruence. Qed.
Lemma digit_sound c d : digit c = Some d -> exists n, (n < 10)%N /\ c = Ascii.ascii_of_N (48 + n) /\ d = Z.of_N n.
Proof.
  unfold digit. destruct (_ && _)%bool eqn:E; [|discriminate]. intros [= <-]. apply andb_true_iff in E as [E1 E2].
  apply Z.leb_le in E1. apply Z.leb_le in E2. exists (Ascii.N_of_ascii c - 48)%N. split; [lia|]. split; [|lia].
  replace (48 + (Ascii.N_of_ascii c - 48))%N with (Ascii.N_of_ascii c) by lia. now rewrite Ascii.ascii_N_embedding.
Qed.
Lemma digit_complete n : (n < 10)%N -> digit (Ascii.ascii_of_N (48 + n)) = Some (Z.of_N n).
Proof.
  intros H. unfold digit. rewrite Ascii.N_ascii_embedding by lia. replace (_ && _)%bool with true; [f_equal; lia|].
  symmetry. apply andb_true_iff. split; apply Z.leb_le; lia.
Qed.
Lemma digits_app a s t : digits a (s ++ t) = match digits a s with Some m => digits m t | None => None end.
Proof. revert a. induction s as [|c s IH]; intros a; cbn [append digits]; [reflexivity|]. destruct (digit c); auto. Qed.
Lemma numeral_head s n : numeral s n -> exists c t, s = String c t /\ (exists d, digit c = Some d) /\ (0 <= n)%Z.
Proof.
  induction 1 as [d Hd|s n d H (c & t & -> & Hc & Hn) Hd].
  - eexists _, _. split; [reflexivity|]. split; [eauto using digit_complete|lia].
  - exists c. eexists. split; [reflexivity|]. split; [auto|lia].
Qed.
Lemma numeral_digits s n : numeral s n -> magnitude s = Some n.
Proof.
  intros H. assert (D : digits 0 s = Some n).
  { induction H as [d Hd|s n d H IH Hd]; cbn [digits]; [rewrite digit_complete by auto; f_equal; lia|].
    rewrite digits_app, IH. cbn [digits]. now rewrite digit_complete. }
  apply numeral_head in H as (c & t & -> & _). exact D.
Qed.
Lemma digits_numeral s : forall s0 a n, numeral s0 a -> digits a s = Some n -> numeral (s0 ++ s) n.
Proof.
  induction s as [|c s IH]; intros s0 a n H0 H; cbn [digits] in H; [injection H as <-; now rewrite app_nil_s|].
  destruct (digit c) as [d|] eqn:D; [|discriminate]. apply digit_sound in D as (m & Hm & -> & ->).
  replace (s0 ++ String (Ascii.ascii_of_N (48 + m)) s) with ((s0 ++ String (Ascii.ascii_of_N (48 + m)) "") ++ s) by now rewrite app_assoc_s.
  eapply IH; [|exact H]. now constructor.
Qed.
Lemma magnitude_spec s n : magnitude s = Some n <-> numeral s n.
Proof.
  split; [|apply numeral_digits]. destruct s as [|c s]; [discriminate|]. cbn [magnitude digits].
  destruct (digit c) as [d|] eqn:D; [|discriminate]. apply digit_sound in D as (m & Hm & -> & ->). intros H.
  change (String (Ascii.ascii_of_N (48 + m)) s) with (String (Ascii.ascii_of_N (48 + m)) "" ++ s).
  eapply digits_numeral; [now constructor|]. now rewrite Z.mul_0_r in H.
Qed.
Lemma atoi_spec s n : strconv_Atoi s = Some n <-> number s n.
Proof.
  unfold strconv_Atoi, number. split.
  - intros H. assert (E : exists m, (match s with String c t => if Ascii.eqb c "-"%char then option_map Z.opp (magnitude t) else if Ascii.eqb c "+"%char then magnitude t else magnitude s | "" => None end) = Some m /\ m = n /\ (- 2 ^ 63 <= n < 2 ^ 63)%Z).
    { destruct (match s with String _ _ => _ | "" => None end) as [m|]; [|discriminate]. destruct (_ && _)%bool eqn:E; [|discriminate]. injection H as ->.
      apply andb_true_iff in E as [E1 E2]. apply Z.leb_le in E1. apply Z.ltb_lt in E2. eauto. }
    destruct E as (m & E & -> & R). split; [exact R|]. destruct s as [|c t]; [discriminate|].
    destruct (Ascii.eqb c "-"%char) eqn:E1; [|destruct (Ascii.eqb c "+"%char) eqn:E2].
    + apply Ascii.eqb_eq in E1 as ->. right; right. exists t. split; [reflexivity|]. destruct (magnitude t) as [k|] eqn:M; [|discriminate]. injection E as <-.
      rewrite Z.opp_involutive. now apply magnitude_spec.
    + apply Ascii.eqb_eq in E2 as ->. right; left. exists t. split; [reflexivity|]. now apply magnitude_spec.
    + left. now apply magnitude_spec.
  - intros [R H]. assert (E : (match s with String c t => if Ascii.eqb c "-"%char then option_map Z.opp (magnitude t) else if Ascii.eqb c "+"%char then magnitude t else magnitude s | "" => None end) = Some n).
    { destruct H as [H|[(t & -> & H)|(t & -> & H)]].
      - destruct (numeral_head _ _ H) as (c & t & -> & (d & D) & _). destruct (Ascii.eqb c "-"%char) eqn:E1; [apply Ascii.eqb_eq in E1 as ->; discriminate|].
        destruct (Ascii.eqb c "+"%char) eqn:E2; [apply Ascii.eqb_eq in E2 as ->; discriminate|]. now apply magnitude_spec.
      - cbn. now apply magnitude_spec.
      - cbn. apply magnitude_spec in H. rewrite H. cbn. f_equal. lia. }
    rewrite E. replace (_ && _)%bool with true; auto. symmetry. apply andb_true_iff. split; [apply Z.leb_le|apply Z.ltb_lt]; lia.
Qed.
Lemma numeral_lacks s n c : numeral s n -> digit c = None -> lacks c s.
Proof.
  intros H D. assert (A : forall d, (d < 10)%N -> Ascii.ascii_of_N (48 + d) <> c) by (intros d Hd <-; now rewrite digit_complete in D).
  assert (L : forall u v, lacks c u -> lacks c v -> lacks c (u ++ v)) by (induction u; cbn; intuition).
  induction H; [split; [auto|exact I]|]. apply L; [auto|]. split; [auto|exact I].
Qed.
Lemma number_lacks s n : number s n -> lacks "="%char s /\ s <> "" /\ s <> "none" /\ s <> "varint".
Proof.
  intros [_ H].
  assert (L : lacks "="%char s) by (destruct H as [H|[(t & -> & H)|(t & -> & H)]]; [|split; [discriminate|]..]; eapply numeral_lacks; eauto; reflexivity).
  split; [exact L|]. clear L.
  destruct H as [H|[(t & -> & H)|(t & -> & H)]]; [|repeat split; discriminate..].
  apply numeral_head in H as (c & t & -> & (d & D) & _). repeat split; [discriminate|intros [= -> ->]; discriminate..].
Qed.

(** ** Tokens *)

Definition apply_item (o : fopts) (i : item) : fopts :=
  match i with
  | IVarint => mkOpts (omitHeader o) (varintHeader o) (headerSize o) (minSize o) (maxSize o) true (optional o) (omit o)
  | IOptional => mkOpts (omitHeader o) (varintHeader o) (headerSize o) (minSize o) (maxSize o) (varint o) true (omit o)
  | IOmit => mkOpts (omitHeader o) (varintHeader o) (headerSize o) (minSize o) (maxSize o) (varint o) (optional o) true
  | IHeadNone => mkOpts true (varintHeader o) (headerSize o) (minSize o) (maxSize o) (varint o) (optional o) (omit o)
  | IHeadVarint => mkOpts (omitHeader o) true (headerSize o) (minSize o) (maxSize o) (varint o) (optional o) (omit o)
  | IHead n => mkOpts (omitHeader o) (varintHeader o) n (minSize o) (maxSize o) (varint o) (optional o) (omit o)
  | IMin n => mkOpts (omitHeader o) (varintHeader o) (headerSize o) n (maxSize o) (varint o) (optional o) (omit o)
  | IMax n => mkOpts (omitHeader o) (varintHeader o) (headerSize o) (minSize o) n (varint o) (optional o) (omit o)
  | INothing => o
  end.
Lemma seqb_neq s t : s <> t -> (s =? t) = false. Proof. apply String.eqb_neq. Qed.
Lemma slen s : s <> "" -> (String.length s =? 0)%nat = false. Proof. destruct s; [easy|reflexivity]. Qed.
Lemma token_complete t i o : means t i -> parse_token o t = Ok (apply_item o i).
Proof.
  unfold parse_token. destruct 1 as [| | | | |s n H|s n H|s n H|w H1 H2|k v H1 H2 H3 H4 H5]; try reflexivity.
  1-3: destruct (number_lacks _ _ H) as (L & N1 & N2 & N3); apply atoi_spec in H.
  - change ("head=" ++ s) with ("head" ++ String "="%char s). rewrite split_app, (split_lacks _ s) by (auto; repeat split; discriminate).
    rewrite (slen s N1). cbn -[String.eqb atoi]. rewrite (seqb_neq s _ N2), (seqb_neq s _ N3). unfold atoi. now rewrite H.
  - change ("min=" ++ s) with ("min" ++ String "="%char s). rewrite split_app, (split_lacks _ s) by (auto; repeat split; discriminate).
    rewrite (slen s N1). cbn -[atoi]. unfold atoi. now rewrite H.
  - change ("max=" ++ s) with ("max" ++ String "="%char s). rewrite split_app, (split_lacks _ s) by (auto; repeat split; discriminate).
    rewrite (slen s N1). cbn -[atoi]. unfold atoi. now rewrite H.
  - rewrite split_lacks by auto. rewrite !seqb_neq; [reflexivity|intros ->; apply H2; cbn; tauto..].
  - change (k ++ "=" ++ v) with (k ++ String "="%char v). rewrite split_app, (split_lacks _ v) by auto. rewrite (slen k H3), (slen v H4). cbn [orb].
    rewrite !seqb_neq; [reflexivity|intros ->; apply H5; cbn; tauto..].
Qed.
Lemma token_sound t o o' : parse_token o t = Ok o' -> exists i, means t i.
Proof.
  unfold parse_token. destruct (split_spec "="%char t) as [J L]. destruct (split "="%char t) as [|w [|v [|]]]; try discriminate.
  - cbn in J. subst w. inversion L; subst. intros _.
    destruct (t =? "varint") eqn:E1; [apply String.eqb_eq in E1 as ->; eexists; constructor|].
    destruct (t =? "optional") eqn:E2; [apply String.eqb_eq in E2 as ->; eexists; constructor|].
    destruct (t =? "omit") eqn:E3; [apply String.eqb_eq in E3 as ->; eexists; constructor|].
    apply String.eqb_neq in E1. apply String.eqb_neq in E2. apply String.eqb_neq in E3. exists INothing. constructor; [auto|].
    intros [H|[H|[H|[]]]]; congruence.
  - change (w ++ String "="%char v = t) in J. inversion L as [|? ? L1 L2]; subst. inversion L2 as [|? ? L3 _]; subst. clear L L2.
    destruct (String.length w =? 0)%nat eqn:Z1; [discriminate|]. destruct (String.length v =? 0)%nat eqn:Z2; [discriminate|]. cbn [orb].
    assert (K : w <> "") by (intros ->; discriminate). assert (V : v <> "") by (intros ->; discriminate).
    destruct (w =? "head") eqn:E1; [|destruct (w =? "min") eqn:E2; [|destruct (w =? "max") eqn:E3]].
    + apply String.eqb_eq in E1 as ->. destruct (v =? "none") eqn:F1; [apply String.eqb_eq in F1 as ->; eexists; apply means_none|].
      destruct (v =? "varint") eqn:F2; [apply String.eqb_eq in F2 as ->; eexists; apply means_head_varint|].
      unfold atoi. destruct (strconv_Atoi v) as [n|] eqn:A; [|discriminate]. intros _. exists (IHead n). apply means_head. now apply atoi_spec.
    + apply String.eqb_eq in E2 as ->. unfold atoi. destruct (strconv_Atoi v) as [n|] eqn:A; [|discriminate]. intros _. exists (IMin n). apply means_min. now apply atoi_spec.
    + apply String.eqb_eq in E3 as ->. unfold atoi. destruct (strconv_Atoi v) as [n|] eqn:A; [|discriminate]. intros _. exists (IMax n). apply means_max. now apply atoi_spec.
    + intros _. exists INothing. apply String.eqb_neq in E1. apply String.eqb_neq in E2. apply String.eqb_neq in E3.
      apply (means_other w v); auto. intros [H|[H|[H|[]]]]; congruence.
Qed.
Lemma token_ends t o : (exists o', parse_token o t = Ok o') \/ parse_token o t = Panic.
Proof.
  unfold parse_token. destruct (split "="%char t) as [|w [|v [|]]]; auto; unfold atoi;
  repeat (match goal with |- context [if ?b then _ else _] => destruct b | |- context [match strconv_Atoi ?v with _ => _ end] => destruct (strconv_Atoi v) end; cbn [bind]; eauto).
Qed.
Lemma tokens_ends l : forall o, (exists o', parse_tokens o l = Ok o') \/ parse_tokens o l = Panic.
Proof. induction l as [|t l IH]; intros o; cbn [parse_tokens]; [eauto|]. destruct (token_ends t o) as [(o' & ->)| ->]; cbn [bind]; auto. Qed.
Lemma tokens_complete ts is : Forall2 means ts is -> forall o, parse_tokens o ts = Ok (fold_left apply_item is o).
Proof. induction 1; intros o; cbn [parse_tokens fold_left]; [reflexivity|]. rewrite (token_complete _ _ _ H). cbn [bind]. auto. Qed.
Lemma tokens_sound ts : forall o o', parse_tokens o ts = Ok o' -> exists is, Forall2 means ts is.
Proof.
  induction ts as [|t ts IH]; intros o o' H; cbn [parse_tokens] in H; [exists []; constructor|].
  inv_bind H as o1 H1. destruct (token_sound _ _ _ H1) as [i Hi]. destruct (IH _ _ H) as [is His]. exists (i :: is). now constructor.
Qed.

Lemma last_snoc l (x d : Z) : last (l ++ [x]) d = x.
Proof. induction l as [|a l IH]; [reflexivity|]. cbn. rewrite IH. destruct (l ++ [x])%list eqn:E; [destruct l; discriminate|reflexivity]. Qed.
Lemma items_options is : fold_left apply_item is null_opts = options is.
Proof.
  induction is as [|i is IH] using rev_ind; [reflexivity|]. rewrite fold_left_app. cbn [fold_left]. rewrite IH.
  unfold options, last_given. rewrite !existsb_app, !flat_map_app. cbn [existsb flat_map app].
  destruct i; cbn [apply_item is_item flat_map app existsb omitHeader varintHeader headerSize minSize maxSize varint optional omit];
    rewrite ?app_nil_r, ?orb_false_r, ?orb_true_r, ?last_snoc; reflexivity.
Qed.

Lemma parse_spec ts : ts <> [] -> Forall (lacks ","%char) ts ->
  (forall o, parseTag (join ts) = Ok o <-> exists is, Forall2 means ts is /\ o = options is /\ consistent o = true) /\
  ((exists o, parseTag (join ts) = Ok o) \/ parseTag (join ts) = Panic).
Proof.
  intros N L. unfold parseTag. rewrite <- joinc_join, split_join by auto. split.
  - intros o. split.
    + intros H. inv_bind H as o1 H1. destruct (tokens_sound _ _ _ H1) as [is His]. rewrite (tokens_complete _ _ His) in H1. apply Ok_inj in H1 as <-.
      rewrite items_options in H. destruct (consistent (options is)) eqn:C; [|discriminate]. cbn in H. apply Ok_inj in H as <-. eauto.
    + intros (is & His & -> & C). rewrite (tokens_complete _ _ His), items_options. cbn [bind]. now rewrite C.
  - destruct (tokens_ends ts null_opts) as [(o & ->)| ->]; cbn [bind]; [|auto]. destruct (consistent o); cbn; eauto.
Qed.

(** ** Consistency *)

Lemma coherent_spec o : headerSize o <> 1%Z -> (0 <= headerSize o)%Z -> (0 <= minSize o)%Z -> (0 <= maxSize o)%Z -> consistent o = true <-> coherent o.
Proof.
  destruct o as [a b h mi ma v p i]. cbn [headerSize minSize maxSize]. intros H1 H2 H3 H4.
  unfold consistent, coherent, for_slices. cbn [omitHeader varintHeader headerSize minSize maxSize varint optional omit].
  assert (Nh : h <> 0%Z <-> (1 <? h)%Z = true) by (rewrite Z.ltb_lt; lia). assert (Zh : h = 0%Z <-> (1 <? h)%Z = false) by (rewrite Z.ltb_ge; lia).
  assert (Nm : ma <> 0%Z <-> (0 <? ma)%Z = true) by (rewrite Z.ltb_lt; lia). assert (Nn : mi <> 0%Z <-> (0 <? mi)%Z = true) by (rewrite Z.ltb_lt; lia).
  assert (Le : (mi <= ma)%Z <-> (ma <? mi)%Z = false) by (rewrite Z.ltb_ge; lia).
  rewrite Nh, Zh, Nm, Nn, Le. generalize (1 <? h)%Z, (0 <? ma)%Z, (0 <? mi)%Z, (ma <? mi)%Z. clear. intros hb mb nb lb.
  split.
  - destruct a, b, hb, mb, nb, lb, v, p, i; cbn; try discriminate; intros _; repeat split; try discriminate; intuition discriminate.
  - intros (A & B & C & D & E & F). destruct a, b, hb, mb, nb, lb, v, p, i; cbn; try reflexivity; exfalso;
      try (now apply A); try (assert (X : true = false) by (apply B; auto); discriminate X); try (now (assert (X := C eq_refl); discriminate X));
      try (destruct (D eq_refl) as (X1 & X2 & X3); discriminate || (apply X1; auto 6)); try (destruct (E eq_refl) as (X1 & X2); discriminate || (apply X1; auto 6)); try (apply (F eq_refl); auto 6).
Qed.

(** Every tag is a list of tokens separated by commas. It is accepted exactly when every token means something and the options they stand for are
    consistent; then the options are what the tokens say. Otherwise the program stops (tags.go:121-173). *)
Theorem C65_tags : forall tag : string, exists ts : list string,
  ts <> [] /\ Forall (lacks ","%char) ts /\ join ts = tag /\
  (forall o, parseTag tag = Ok o <-> exists items, Forall2 means ts items /\ o = options items /\ consistent o = true) /\
  ((exists o, parseTag tag = Ok o) \/ parseTag tag = Panic).
Proof.
  intros tag. exists (split ","%char tag). destruct (split_spec ","%char tag) as [J L]. rewrite joinc_join in J.
  destruct (parse_spec (split ","%char tag) (split_ne _ _) L) as [A B]. rewrite J in A, B. repeat split; auto using split_ne; apply A.
Qed.
Print Assumptions C65_tags.

Example tags_example :
  Forall2 means ["head=2"; "min=3"; "flavour"; "max=60000"] [IHead 2; IMin 3; INothing; IMax 60000] /\
  parseTag "head=2,min=3,flavour,max=60000" = Ok (mkOpts false false 2 3 60000 false false false) /\
  parseTag "head=two" = Panic /\ parseTag "head=3,varint" = Panic.
Proof.
  split; [|split; [vm_compute; reflexivity|split; vm_compute; reflexivity]].
  constructor; [change "head=2" with ("head=" ++ "2"); apply means_head, atoi_spec; reflexivity|].
  constructor; [change "min=3" with ("min=" ++ "3"); apply means_min, atoi_spec; reflexivity|].
  constructor; [apply means_word; [repeat split; discriminate|intros [H|[H|[H|[]]]]; discriminate]|].
  constructor; [change "max=60000" with ("max=" ++ "60000"); apply means_max, atoi_spec; reflexivity|constructor].
Qed.

(** The full statement is: [parseTag] accepts exactly the tags whose options are coherent,
    [consistent o = true <-> coherent o] for all [o]. That is false for a header size of 1, which the code does not count as
    a header option, and for negative numbers. *)
Theorem C65_coherent_partial : forall o, headerSize o <> 1%Z -> (0 <= headerSize o)%Z -> (0 <= minSize o)%Z -> (0 <= maxSize o)%Z ->
  consistent o = true <-> coherent o.
Proof. exact coherent_spec. Qed.
Print Assumptions C65_coherent_partial.
Example coherent_example : consistent (tag 2 2 254) = true /\ coherent (tag 2 2 254) /\ ~ coherent (mkOpts true false 2 0 0 false false false).
Proof.
  split; [reflexivity|]. split; [apply coherent_spec; cbn; try discriminate; reflexivity|]. intros H.
  apply coherent_spec in H; try discriminate; cbn; lia.
Qed.

(** A field with a header of one byte may also be declared to have no header, and is then written without one. *)
Theorem C65_coherent_refuted : exists tag o, parseTag tag = Ok o /\ ~ coherent o /\ validForType o KSlice = true /\
  encodeLength 3 o = Ok [].
Proof.
  exists "head=1,head=none". eexists. split; [vm_compute; reflexivity|]. split; [|split; reflexivity].
  intros (_ & H & _). cbn in H. assert (E : 1%Z = 0%Z) by auto. discriminate.
Qed.
Print Assumptions C65_coherent_refuted.

(** "the values MUST be unsigned integers" (tags.go:119): negative ones are accepted. *)
Theorem C65_unsigned_refuted : exists tag o, parseTag tag = Ok o /\ (headerSize o < 0)%Z.
Proof. exists "head=-2". eexists. split; [vm_compute; reflexivity|reflexivity]. Qed.
Print Assumptions C65_unsigned_refuted.

(** ** The types of the messages *)

Definition as_struct (l : list (string * ty)) : option ty := match tagged l with Ok fs => Some (TStruct fs) | _ => None end.

(** The types of messages, extensions, acknowledgements and cookies in the model are those that the tags in the Go source say
    (dtls.go:29, extensions.go:19-613, handshake-messages.go:34-454, server-state-machine.go:69-76). *)
Definition types_of_the_source : list (option ty * ty) :=
  [ (as_struct [("", u16); ("head=2", opaque)], ext_ty)
  ; (as_struct [("head=2", TSlice ext_ty)], extlist_ty)
  ; (match as_struct [("", u8); ("head=2,min=1", opaque)] with Some t => as_struct [("head=2,min=1", TSlice t)] | None => None end, sni_ty)
  ; (as_struct [("", u16); ("head=2,min=1", opaque)], share_ty)
  ; (as_struct [("head=2,min=0", TSlice share_ty)], shares_ty)
  ; (as_struct [("head=2,min=2", TSlice u16)], list16_ty)
  ; (as_struct [("head=2,min=1", opaque); ("", u32)], pskid_ty)
  ; (as_struct [("head=1,min=32", opaque)], binder_ty)
  ; (as_struct [("head=2,min=7", TSlice pskid_ty); ("head=2,min=33", TSlice binder_ty)], psk_client_ty)
  ; (as_struct [("head=1,min=1", TSlice u8)], modes_ty)
  ; (as_struct [("", u32)], tedi_ty)
  ; (match as_struct [("head=1,min=1", opaque)] with Some t => as_struct [("head=2,min=2", TSlice t)] | None => None end, alpn_ty)
  ; (as_struct [("head=1,min=2,max=254", TSlice u16)], versions_ty)
  ; (as_struct [("", u16)], version_ty)
  ; (as_struct [("head=2,min=1", opaque)], cookie_ty)
  ; (as_struct [("", u16); ("", TArray 32 u8); ("head=1,max=32", opaque); ("head=2,min=2", TSlice u16); ("head=1,min=1", opaque); ("head=2", TSlice ext_ty)], ch_ty)
  ; (as_struct [("", u16); ("", TArray 32 u8); ("head=1,max=32", opaque); ("", u8); ("head=2,min=2", TSlice u16); ("head=1,min=1", opaque); ("head=2", TSlice ext_ty)], ch_dtls_ty)
  ; (as_struct [("head=2,min=33", TSlice binder_ty)], binders_ty)
  ; (as_struct [("", u16); ("", TArray 32 u8); ("head=1,max=32", opaque); ("", u16); ("", u8); ("head=2", TSlice ext_ty)], sh_ty)
  ; (as_struct [("head=3,min=1", opaque); ("head=2", TSlice ext_ty)], ce_ty)
  ; (as_struct [("head=1", opaque); ("head=3", TSlice ce_ty)], cert_ty)
  ; (as_struct [("", u16); ("head=2", opaque)], cv_ty)
  ; (as_struct [("head=1", opaque); ("head=2", TSlice ext_ty)], cr_ty)
  ; (as_struct [("", u32); ("", u32); ("head=1", opaque); ("head=2,min=1", opaque); ("head=2", TSlice ext_ty)], tkt_ty)
  ; (as_struct [("", u8)], ku_ty)
  ; (as_struct [("", u16); ("head=2", opaque); ("head=2", opaque)], co_ty)
  ; (as_struct [("head=2", TSlice (TUint U64))], ack_ty) ].
Theorem C65_types : Forall (fun p => fst p = Some (snd p)) types_of_the_source.
Proof. repeat (constructor; [vm_compute; reflexivity|]). constructor. Qed.
Print Assumptions C65_types.
Example types_example : as_struct [("head=1,min=2,max=254", TSlice u16)] <> Some list16_ty.
Proof. vm_compute. discriminate. Qed.
