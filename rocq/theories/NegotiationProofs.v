(** Proofs about negotiation. *)
From Verif Require Import Base Crypto CryptoSpec CryptoProofs Messages Pki Negotiation NegotiationSpec.

Lemma existsb_eqb s l : existsb (N.eqb s) l = true <-> In s l.
Proof.
  rewrite existsb_exists. split.
  - intros (x & Hx & E). apply N.eqb_eq in E. now subst.
  - intros H. exists s. split; auto. apply N.eqb_refl.
Qed.
Lemma existsb_beqb s l : existsb (beqb s) l = true <-> In s l.
Proof.
  rewrite existsb_exists. split.
  - intros (x & Hx & E). apply beqb_eq in E. now subst.
  - intros H. exists s. split; auto. apply beqb_refl.
Qed.

Lemma first_here {A} (Q : A -> Prop) x l : Q x -> first_where Q (x :: l) x.
Proof. intros H. exists [], l. split; [reflexivity|split; [exact H|intros y []]]. Qed.
Lemma first_later {A} (Q : A -> Prop) x y l : ~ Q x -> first_where Q l y -> first_where Q (x :: l) y.
Proof.
  intros H (pre & post & -> & Hy & Hp). exists (x :: pre), post. split; [reflexivity|split; [exact Hy|]].
  intros z [<-|Hz]; auto.
Qed.
Lemma first_cons {A} (Q : A -> Prop) x y l : first_where Q (x :: l) y -> (Q x /\ x = y) \/ (~ Q x /\ first_where Q l y).
Proof.
  intros ([|a pre] & post & E & Hy & Hp); simpl in E; injection E; intros; subst.
  - now left.
  - right. split; [apply Hp; now left|]. exists pre, post. split; [reflexivity|split; [exact Hy|]]. intros z Hz. apply Hp. now right.
Qed.
Lemma first_nil {A} (Q : A -> Prop) y : ~ first_where Q [] y.
Proof. intros (pre & post & E & _). destruct pre; discriminate. Qed.

(** ** Cipher suites *)

Lemma suite_none offered supported s :
  cipherSuiteNegotiation None offered supported = Ok s <-> first_where (fun s => In s supported) offered s.
Proof.
  induction offered as [|s1 o IH]; simpl.
  - split; [discriminate|]. intros H. now apply first_nil in H.
  - destruct (existsb (N.eqb s1) supported) eqn:E.
    + apply existsb_eqb in E. split.
      * intros [= <-]. now apply first_here.
      * intros H. apply first_cons in H. destruct H as [[_ ->]|[H _]]; auto. contradiction.
    + assert (~ In s1 supported) by (rewrite <- existsb_eqb; congruence). rewrite IH. split.
      * now apply first_later.
      * intros H'. apply first_cons in H'. destruct H' as [[? _]|[_ ?]]; auto. contradiction.
Qed.
Lemma suite_none_err offered supported :
  is_err (cipherSuiteNegotiation None offered supported) <-> forall s, In s offered -> ~ In s supported.
Proof.
  induction offered as [|s1 o IH]; simpl.
  - split; [intros _ s []|]. intros _. now eexists.
  - destruct (existsb (N.eqb s1) supported) eqn:E.
    + apply existsb_eqb in E. split; [intros [e He]; discriminate|]. intros H. exfalso. now apply (H s1); [left|].
    + assert (~ In s1 supported) by (rewrite <- existsb_eqb; congruence). rewrite IH. split.
      * intros H' s [<-|Hs]; auto.
      * intros H' s Hs. apply H'. now right.
Qed.
Lemma suite_psk p offered supported s :
  cipherSuiteNegotiation (Some p) offered supported = Ok s <-> s = psk_suite p /\ In s offered.
Proof.
  induction offered as [|s1 o IH]; simpl; [split; [discriminate|tauto]|].
  destruct (s1 =? psk_suite p) eqn:E.
  - apply N.eqb_eq in E. split; [intros [= <-]; auto|]. intros [-> _]. now f_equal.
  - apply N.eqb_neq in E. rewrite IH. split; [tauto|]. intros [-> [H|H]]; [contradiction|auto].
Qed.
Lemma suite_psk_err p offered supported :
  is_err (cipherSuiteNegotiation (Some p) offered supported) <-> ~ In (psk_suite p) offered.
Proof.
  induction offered as [|s1 o IH]; simpl; [split; [tauto|intros _; now eexists]|].
  destruct (s1 =? psk_suite p) eqn:E.
  - apply N.eqb_eq in E. split; [intros [e He]; discriminate|]. intros H. exfalso. auto.
  - apply N.eqb_neq in E. rewrite IH. tauto.
Qed.

Lemma version_first offered supported v :
  versionNegotiation offered supported = Some v <-> first_where (fun s => In s supported) offered v.
Proof.
  induction offered as [|s1 o IH]; simpl.
  - split; [discriminate|]. intros H. now apply first_nil in H.
  - destruct (existsb (N.eqb s1) supported) eqn:E.
    + apply existsb_eqb in E. split.
      * intros [= <-]. now apply first_here.
      * intros H. apply first_cons in H. destruct H as [[_ ->]|[H _]]; auto. contradiction.
    + assert (~ In s1 supported) by (rewrite <- existsb_eqb; congruence). rewrite IH. split.
      * now apply first_later.
      * intros H'. apply first_cons in H'. destruct H' as [[? _]|[_ ?]]; auto. contradiction.
Qed.

(** ** Key shares *)

(** A share the server cannot use although it supports its group: making a key or agreeing on a secret fails. *)
Definition share_fails (P : prims) (rnd : nat -> keyrand) (s : kshare) (k : nat) : Prop :=
  is_err (newKeyShare P (rnd k) (ks_group s)) \/
  exists pub priv, newKeyShare P (rnd k) (ks_group s) = Ok (pub, priv) /\ is_err (keyAgreement P (ks_group s) (ks_data s) priv).

Lemma dh_try_some P rnd s groups n m g pub z :
  dh_try P rnd n s groups = Ok (m, Some (g, pub, z)) ->
  exists k priv, g = ks_group s /\ In g groups /\ (n <= k < m)%nat /\ newKeyShare P (rnd k) g = Ok (pub, priv) /\ keyAgreement P g (ks_data s) priv = Ok z.
Proof.
  revert n; induction groups as [|h groups IH]; intros n; cbn [dh_try]; [discriminate|].
  destruct (h =? ks_group s) eqn:E; cbn [negb].
  - apply N.eqb_eq in E. subst h.
    destruct (newKeyShare P (rnd n) (ks_group s)) as [[pub' priv]|e| |] eqn:K; try discriminate.
    + destruct (keyAgreement P (ks_group s) (ks_data s) priv) as [z'|e| |] eqn:A; try discriminate.
      * intros [= <- <- <- <-]. exists n, priv. repeat split; auto. now left.
      * intros H. apply IH in H. destruct H as (k & priv' & H1 & H2 & H3 & H4). exists k, priv'. repeat split; try tauto; [now right|lia].
    + intros H. apply IH in H. destruct H as (k & priv' & H1 & H2 & H3 & H4). exists k, priv'. repeat split; try tauto; [now right|lia].
  - intros H. apply IH in H. destruct H as (k & priv' & H1 & H2 & H3 & H4). exists k, priv'. repeat split; try tauto. now right.
Qed.
Lemma dh_try_none P rnd s groups n m :
  dh_try P rnd n s groups = Ok (m, None) -> (n <= m)%nat /\ (In (ks_group s) groups -> exists k, (n <= k < m)%nat /\ share_fails P rnd s k).
Proof.
  revert n; induction groups as [|h groups IH]; intros n; cbn [dh_try]; [intros [= <-]; split; auto; intros []|].
  destruct (h =? ks_group s) eqn:E; cbn [negb].
  - apply N.eqb_eq in E. subst h.
    destruct (newKeyShare P (rnd n) (ks_group s)) as [[pub priv]|e| |] eqn:K; try discriminate.
    + destruct (keyAgreement P (ks_group s) (ks_data s) priv) as [z'|e| |] eqn:A; try discriminate.
      intros H. apply IH in H. split; [lia|]. intros _. exists n. split; [lia|]. right. exists pub, priv. split; auto. now exists e.
    + intros H. apply IH in H. split; [lia|]. intros _. exists n. split; [lia|]. left. now exists e.
  - intros H. apply IH in H. destruct H as [Hm H]. split; auto. intros [->|Hin]; [|auto]. rewrite N.eqb_refl in E. discriminate.
Qed.

Lemma dh_some P rnd shares groups n m g pub z :
  dhNegotiation P rnd n shares groups = Ok (m, Some (g, pub, z)) ->
  exists pre share post k priv,
    shares = pre ++ share :: post /\ g = ks_group share /\ In g groups /\
    newKeyShare P (rnd k) g = Ok (pub, priv) /\ keyAgreement P g (ks_data share) priv = Ok z /\
    forall s, In s pre -> In (ks_group s) groups -> exists j, share_fails P rnd s j.
Proof.
  revert n; induction shares as [|s shares IH]; intros n; cbn [dhNegotiation]; [discriminate|].
  destruct (dh_try P rnd n s groups) as [[n' [[[g' pub'] z']|]]|e| |] eqn:T; cbn [bind]; try discriminate.
  - intros [= <- <- <- <-]. apply dh_try_some in T. destruct T as (k & priv & H1 & H2 & _ & H3 & H4).
    exists [], s, shares, k, priv. repeat split; auto. intros t [].
  - intros H. apply IH in H. destruct H as (pre & share & post & k & priv & -> & H1 & H2 & H3 & H4 & H5).
    exists (s :: pre), share, post, k, priv. repeat split; auto.
    intros t [<-|Ht] Hin; auto. apply dh_try_none in T. destruct T as [_ T]. destruct (T Hin) as (j & _ & Hj). now exists j.
Qed.
Lemma dh_none P rnd shares groups n m :
  dhNegotiation P rnd n shares groups = Ok (m, None) -> forall s, In s shares -> In (ks_group s) groups -> exists j, share_fails P rnd s j.
Proof.
  revert n; induction shares as [|s shares IH]; intros n; cbn [dhNegotiation]; [intros _ s []|].
  destruct (dh_try P rnd n s groups) as [[n' [r|]]|e| |] eqn:T; cbn [bind]; try discriminate.
  intros H t [<-|Ht] Hin; [|eauto]. apply dh_try_none in T. destruct T as [_ T]. destruct (T Hin) as (j & _ & Hj). now exists j.
Qed.

(** ** PSKs *)

Lemma expand_label_rfc P h secret label context n :
  mac_sized P -> (n <= 255 * hsize h)%nat -> hkdfExpandLabel P h secret label context n = Expand_Label8446 (hmac P h) secret label context n.
Proof.
  intros HP Hn. unfold hkdfExpandLabel, Expand_Label8446. rewrite label_rfc. now apply expand_rfc.
Qed.
Lemma hsize_255 h : (hsize h <= 255 * hsize h)%nat.
Proof. lia. Qed.

Lemma binder_rfc P params p context :
  mac_sized P ->
  binderOf P params p context =
  binder8446 (digest P (s_hash params)) (hmac P (s_hash params)) (hsize (s_hash params)) (psk_isResumption p) (psk_key p) context.
Proof.
  intros HP. unfold binderOf, binder8446, computeFinishedData, deriveSecret.
  rewrite !expand_label_rfc by auto using hsize_255. unfold hkdfExtract, labelFinished, labelResumptionBinder, labelExternalBinder.
  now destruct (psk_isResumption p).
Qed.

Lemma psk_some P now get ids binders context i j p params :
  pskNegotiation P now get i ids binders context = Ok (Some (j, p, params)) ->
  exists id b, (i <= j)%nat /\ nth_error ids (j - i) = Some id /\ nth_error binders j = Some b /\
    get (hexEncode (pi_identity id)) = Some p /\ cipherSuiteMap (psk_suite p) = Some params /\ b = binderOf P params p context /\
    (psk_isResumption p = true -> ticketAgeDelta now p (pi_age id) <= ticketAgeTolerance) /\
    forall k id', (i <= k < j)%nat -> nth_error ids (k - i) = Some id' -> get (hexEncode (pi_identity id')) = None.
Proof.
  revert i; induction ids as [|id ids IH]; intros i; cbn [pskNegotiation]; [discriminate|].
  destruct (get (hexEncode (pi_identity id))) as [q|] eqn:G.
  - destruct (psk_isResumption q && (ticketAgeTolerance <? ticketAgeDelta now q (pi_age id))) eqn:A; [discriminate|].
    destruct (cipherSuiteMap (psk_suite q)) as [pr|] eqn:C; [|discriminate].
    destruct (nth_error binders i) as [b|] eqn:B; [|discriminate].
    destruct (beqb (binderOf P pr q context) b) eqn:E; [|discriminate].
    intros [= <- <- <-]. apply beqb_eq in E. exists id, b. rewrite Nat.sub_diag.
    repeat split; auto.
    + intros R. rewrite R in A. cbn [andb] in A. apply N.ltb_ge in A. exact A.
    + intros k id' Hk. lia.
  - intros H. apply IH in H. destruct H as (id' & b & H1 & H2 & H3 & H4 & H5 & H6 & H7 & H8).
    exists id', b. split; [lia|]. replace (j - i)%nat with (S (j - S i)) by lia. repeat split; auto.
    intros k id'' Hk Hn. destruct (Nat.eq_dec k i) as [->|Hne].
    + rewrite Nat.sub_diag in Hn. injection Hn as <-. exact G.
    + replace (k - i)%nat with (S (k - S i)) in Hn by lia. apply (H8 k); [lia|exact Hn].
Qed.

Lemma sub32_le a b : a < 2 ^ 32 -> b <= a -> sub32 a b = a - b.
Proof.
  intros Ha Hb. unfold sub32. replace (a + 2 ^ 32 - b) with (a - b + 1 * 2 ^ 32) by lia.
  rewrite N.mod_add by lia. apply N.mod_small. lia.
Qed.
Lemma sub32_claimed a b : a < 2 ^ 32 -> b < 2 ^ 32 -> Z.of_N (sub32 a b) = claimed_age a b.
Proof.
  intros Ha Hb. unfold sub32, claimed_age. rewrite N2Z.inj_mod, N2Z.inj_sub, N2Z.inj_add by lia.
  change (Z.of_N (2 ^ 32)) with (2 ^ 32)%Z. rewrite <- (Z.mod_add (Z.of_N a - Z.of_N b) 1 (2 ^ 32)) by lia. f_equal. lia.
Qed.
Lemma sub32_lt a b : sub32 a b < 2 ^ 32.
Proof. apply N.mod_lt. lia. Qed.
Lemma sinceMs_real now t :
  (0 <= real_age now t < 2 ^ 32)%Z -> Z.of_N (sinceMs now t) = real_age now t.
Proof.
  unfold real_age, sinceMs. intros H.
  assert (0 <= now - t)%Z by (apply Z.nlt_ge; intros Hn; assert ((now - t) / 1000000 < 0)%Z by (apply Z.div_lt_upper_bound; lia); lia).
  assert (now - t < 2 ^ 63)%Z by (apply Z.nle_gt; intros Hn; assert (2 ^ 63 / 1000000 <= (now - t) / 1000000)%Z by (apply Z.div_le_mono; lia); revert H; vm_compute (2 ^ 63 / 1000000)%Z in *; lia).
  unfold since. rewrite Z.min_r, Z.max_r by lia. rewrite Z.quot_div_nonneg by lia.
  rewrite (Z.mod_small _ _ H), Z2N.id by lia. reflexivity.
Qed.
Lemma age_delta now p age :
  age < 2 ^ 32 -> psk_ageAdd p < 2 ^ 32 -> (0 <= real_age now (psk_receivedAt p) < 2 ^ 32)%Z ->
  Z.of_N (ticketAgeDelta now p age) = Z.abs (real_age now (psk_receivedAt p) - claimed_age age (psk_ageAdd p)).
Proof.
  intros Ha Hb Hr. unfold ticketAgeDelta. pose proof (sub32_claimed _ _ Ha Hb) as HC. pose proof (sub32_lt age (psk_ageAdd p)) as HL.
  pose proof (sinceMs_real _ _ Hr) as HS.
  assert (sinceMs now (psk_receivedAt p) < 2 ^ 32) by lia.
  destruct (N.ltb_spec (sinceMs now (psk_receivedAt p)) (sub32 age (psk_ageAdd p))); rewrite sub32_le by lia; lia.
Qed.

(** ** PSK modes *)

Lemma fold_or (f : N -> bool) l a : fold_left (fun a m => a || f m) l a = a || existsb f l.
Proof. revert a; induction l as [|x l IH]; intros a; simpl; [now rewrite orb_false_r|]. now rewrite IH, orb_assoc. Qed.
Lemma fold_and (f : N -> bool) l a : fold_left (fun a m => a && f m) l a = a && forallb f l.
Proof. revert a; induction l as [|x l IH]; intros a; simpl; [now rewrite andb_true_r|]. now rewrite IH, andb_assoc. Qed.
Lemma modes_psk dh psk modes :
  snd (pskModeNegotiation dh psk modes) = true <->
  psk = true /\ modes <> [] /\ ((exists m, In m modes /\ m <> PSKModeDHEKE) \/ dh = true).
Proof.
  unfold pskModeNegotiation. cbn [snd]. rewrite fold_and. cbn [andb].
  rewrite !andb_true_iff, orb_true_iff, negb_true_iff.
  assert (Hf : forallb (fun m => m =? PSKModeDHEKE) modes = false <-> exists m, In m modes /\ m <> PSKModeDHEKE).
  { split.
    - intros H. induction modes as [|m l IH]; [discriminate|]. simpl in H. apply andb_false_iff in H. destruct H as [H|H].
      + apply N.eqb_neq in H. exists m. split; [now left|auto].
      + destruct (IH H) as (m' & Hm & Hn). exists m'. split; [now right|auto].
    - intros (m & Hm & Hn). apply not_true_is_false. rewrite forallb_forall. intros H. apply H in Hm. apply N.eqb_eq in Hm. contradiction. }
  assert (Hl : (0 <? List.length modes)%nat = true <-> modes <> []).
  { rewrite Nat.ltb_lt. destruct modes; simpl; split; try lia; congruence. }
  rewrite Hf, Hl. tauto.
Qed.
Lemma modes_dh dh psk modes :
  fst (pskModeNegotiation dh psk modes) = true <->
  dh = true /\ (In PSKModeDHEKE modes \/ snd (pskModeNegotiation dh psk modes) = false).
Proof.
  unfold pskModeNegotiation. cbn [fst snd]. rewrite fold_or. cbn [orb]. rewrite andb_true_iff, orb_true_iff, negb_true_iff.
  assert (existsb (fun m => m =? PSKModeDHEKE) modes = true <-> In PSKModeDHEKE modes).
  { rewrite existsb_exists. split; [intros (x & Hx & E); apply N.eqb_eq in E; now subst|]. intros H. exists PSKModeDHEKE. split; auto. }
  tauto.
Qed.

(** ** Protocols *)

Lemma alpn_loop_first p offered supported s :
  alpn_loop p offered supported = Some s <->
  first_where (fun s => In s supported /\ match p with Some p => s = psk_nextProto p | None => True end) offered s.
Proof.
  induction offered as [|a o IH]; simpl.
  - split; [discriminate|]. intros H. now apply first_nil in H.
  - set (Q := fun s => In s supported /\ match p with Some p => s = psk_nextProto p | None => True end).
    assert (HQ : (match p with Some p => beqb a (psk_nextProto p) | None => true end) && existsb (beqb a) supported = true <-> Q a).
    { unfold Q. rewrite andb_true_iff, existsb_beqb. destruct p as [p|]; [rewrite beqb_eq|]; tauto. }
    destruct ((match p with Some p => beqb a (psk_nextProto p) | None => true end) && existsb (beqb a) supported).
    + split.
      * intros [= <-]. apply first_here. now apply HQ.
      * intros H. apply first_cons in H. destruct H as [[_ ->]|[H _]]; auto. destruct H. now apply HQ.
    + assert (~ Q a) by (intros H; apply HQ in H; discriminate). rewrite IH. split.
      * now apply first_later.
      * intros H'. apply first_cons in H'. destruct H' as [[? _]|[_ ?]]; auto. contradiction.
Qed.
Lemma alpn_loop_none p offered supported :
  alpn_loop p offered supported = None ->
  forall s, In s offered -> ~ (In s supported /\ match p with Some p => s = psk_nextProto p | None => True end).
Proof.
  induction offered as [|a o IH]; simpl; [intros _ s []|].
  destruct ((match p with Some p => beqb a (psk_nextProto p) | None => true end) && existsb (beqb a) supported) eqn:E; [discriminate|].
  intros H s [<-|Hs]; [|auto]. intros [H1 H2]. apply existsb_beqb in H1. rewrite H1 in E.
  destruct p as [p|]; [|discriminate]. apply beqb_eq in H2. rewrite H2 in E. discriminate.
Qed.
Lemma alpn_none offered supported :
  (exists s, first_where (fun s => In s supported) offered s /\ alpnNegotiation None offered supported = Ok s) \/
  ((forall s, In s offered -> ~ In s supported) /\ alpnNegotiation None offered supported = Ok []).
Proof.
  unfold alpnNegotiation. destruct (alpn_loop None offered supported) as [s|] eqn:E.
  - left. exists s. split; auto. apply alpn_loop_first in E. destruct E as (pre & post & -> & [H _] & Hp).
    exists pre, post. split; auto. split; auto. intros y Hy Hin. apply (Hp y Hy). auto.
  - right. split; auto. intros s Hs Hin. apply (alpn_loop_none _ _ _ E s Hs). auto.
Qed.
Lemma alpn_psk p offered supported :
  (In (psk_nextProto p) offered /\ In (psk_nextProto p) supported -> alpnNegotiation (Some p) offered supported = Ok (psk_nextProto p)) /\
  (~ (In (psk_nextProto p) offered /\ In (psk_nextProto p) supported) ->
   if psk_isResumption p then (offered <> [] -> is_err (alpnNegotiation (Some p) offered supported)) /\ (offered = [] -> alpnNegotiation (Some p) offered supported = Ok [])
   else alpnNegotiation (Some p) offered supported = Ok []).
Proof.
  unfold alpnNegotiation. destruct (alpn_loop (Some p) offered supported) as [s|] eqn:E.
  - apply alpn_loop_first in E. destruct E as (pre & post & -> & [H1 ->] & _). split; auto.
    intros H. destruct H. split; auto. apply in_or_app. right. now left.
  - split.
    + intros [H1 H2]. exfalso. apply (alpn_loop_none _ _ _ E _ H1). auto.
    + intros _. destruct (psk_isResumption p); cbn [andb]; auto. destruct offered as [|a o]; split; try congruence; intros; simpl; now eexists.
Qed.

(** ** Certificates *)

Lemma certs_for_in X name certs cs c :
  certs_for X name certs = Ok cs -> In c cs -> In c certs /\ name <> [] /\ exists leaf rest, kp_chain c = leaf :: rest /\ In name (x_names X leaf).
Proof.
  revert cs; induction certs as [|d certs IH]; intros cs; cbn [certs_for]; [intros [= <-] []|].
  destruct (kp_chain d) as [|leaf rest] eqn:K; [discriminate|].
  destruct (certs_for X name certs) as [cs'|e| |]; cbn [bind]; try discriminate. intros [= <-] H.
  apply in_app_or in H. destruct H as [H|H].
  - apply in_map_iff in H. destruct H as (n & <- & Hn). apply filter_In in Hn. destruct Hn as [Hn E].
    apply andb_true_iff in E. destruct E as [E1 E2]. apply beqb_eq in E2. subst n. split; [now left|]. split.
    + intros ->. discriminate.
    + exists leaf, rest. auto.
  - destruct (IH _ eq_refl H) as (H1 & H2 & H3). split; [now right|auto].
Qed.
Lemma find_first {A} (f : A -> bool) l s : find f l = Some s -> first_where (fun s => f s = true) l s.
Proof.
  induction l as [|x l IHl]; simpl; [discriminate|]. destruct (f x) eqn:V.
  - intros [= <-]. now apply first_here.
  - intros H. apply first_later; [congruence|auto].
Qed.
Lemma cert_scheme_ok X schemes certs c s :
  cert_scheme X schemes certs = Ok (c, s) ->
  first_where (fun c => exists s, In s schemes /\ schemeValidForKey X s (kp_key c) = true) certs c /\
  first_where (fun s => schemeValidForKey X s (kp_key c) = true) schemes s.
Proof.
  induction certs as [|d certs IH]; cbn [cert_scheme]; [discriminate|].
  destruct (find (fun s => schemeValidForKey X s (kp_key d)) schemes) as [s'|] eqn:F.
  - intros [= <- <-]. split.
    + apply first_here. apply find_some in F. now exists s'.
    + now apply find_first.
  - intros H. destruct (IH H) as [H1 H2]. split; auto. apply first_later; auto.
    intros (x & Hx & V). rewrite (find_none _ _ F x Hx) in V. discriminate.
Qed.
Lemma selection_ok X name schemes certs c s :
  certificateSelection X name schemes certs = Ok (c, s) ->
  In c certs /\ In s schemes /\ schemeValidForKey X s (kp_key c) = true /\
  match name with None => True | Some name => name <> [] /\ exists leaf rest, kp_chain c = leaf :: rest /\ In name (x_names X leaf) end.
Proof.
  unfold certificateSelection. destruct name as [name|].
  - destruct (certs_for X name certs) as [cs|e| |] eqn:F; cbn [bind]; try discriminate.
    destruct cs as [|d cs]; [discriminate|]. intros H. apply cert_scheme_ok in H. destruct H as [(pre & post & E & _) (pre' & post' & -> & V & _)].
    assert (Hc : In c (d :: cs)) by (rewrite E; apply in_or_app; right; now left).
    destruct (certs_for_in _ _ _ _ _ F Hc) as (H1 & H2 & H3). repeat split; auto. apply in_or_app. right. now left.
  - intros H. apply cert_scheme_ok in H. destruct H as [(pre & post & -> & _) (pre' & post' & -> & V & _)].
    repeat split; auto; apply in_or_app; right; now left.
Qed.

Lemma dh_first P rnd shares groups n m g pub z :
  (forall s k, In s shares -> In (ks_group s) groups -> ~ share_fails P rnd s k) ->
  dhNegotiation P rnd n shares groups = Ok (m, Some (g, pub, z)) ->
  exists share k priv, first_where (fun s => In (ks_group s) groups) shares share /\ g = ks_group share /\
    newKeyShare P (rnd k) g = Ok (pub, priv) /\ keyAgreement P g (ks_data share) priv = Ok z.
Proof.
  intros HF H. apply dh_some in H. destruct H as (pre & share & post & k & priv & -> & -> & H2 & H3 & H4 & H5).
  exists share, k, priv. split; [|auto]. exists pre, post. split; [reflexivity|]. split; [exact H2|].
  intros s Hs Hin. destruct (H5 s Hs Hin) as (j & Hj). apply (HF s j) in Hj; auto. apply in_or_app. now left.
Qed.
Lemma dh_none_first P rnd shares groups n m :
  (forall s k, In s shares -> In (ks_group s) groups -> ~ share_fails P rnd s k) ->
  dhNegotiation P rnd n shares groups = Ok (m, None) -> forall s, In s shares -> ~ In (ks_group s) groups.
Proof. intros HF H s Hs Hin. destruct (dh_none _ _ _ _ _ _ H s Hs Hin) as (j & Hj). now apply (HF s j) in Hj. Qed.
(** Curve shares of the right size never fail while randomness lasts. *)
Lemma curve_share_usable P rnd s k :
  In (ks_group s) [P256; P384; P521; X25519] -> List.length (ks_data s) = keyExchangeSize (ks_group s) -> kr_curve (rnd k) <> None ->
  ~ share_fails P rnd s k.
Proof.
  intros Hg Hs Hr.
  assert (E : (ks_group s =? P256) || (ks_group s =? P384) || (ks_group s =? P521) || (ks_group s =? X25519) = true).
  { destruct Hg as [<-|[<-|[<-|[<-|[]]]]]; reflexivity. }
  intros [[e He]|(pub & priv & _ & [e He])].
  - unfold newKeyShare in He. rewrite E in He. destruct (kr_curve (rnd k)); [discriminate|contradiction].
  - unfold keyAgreement in He. rewrite E, Hs, Nat.eqb_refl in He. cbn [negb] in He. destruct (ec_agree P (ks_group s) (ks_data s) priv); discriminate.
Qed.
Lemma psk_accept P now get ids binders context j p params :
  mac_sized P ->
  pskNegotiation P now get 0 ids binders context = Ok (Some (j, p, params)) ->
  exists id b, nth_error ids j = Some id /\ nth_error binders j = Some b /\
    get (hexEncode (pi_identity id)) = Some p /\ cipherSuiteMap (psk_suite p) = Some params /\
    b = binder8446 (digest P (s_hash params)) (hmac P (s_hash params)) (hsize (s_hash params)) (psk_isResumption p) (psk_key p) context /\
    (psk_isResumption p = true -> pi_age id < 2 ^ 32 -> psk_ageAdd p < 2 ^ 32 -> (0 <= real_age now (psk_receivedAt p) < 2 ^ 32)%Z ->
     (Z.abs (real_age now (psk_receivedAt p) - claimed_age (pi_age id) (psk_ageAdd p)) <= 5000)%Z) /\
    forall k id', (k < j)%nat -> nth_error ids k = Some id' -> get (hexEncode (pi_identity id')) = None.
Proof.
  intros HP H. apply psk_some in H. destruct H as (id & b & _ & H1 & H2 & H3 & H4 & H5 & H6 & H7). rewrite Nat.sub_0_r in H1.
  exists id, b. repeat split; auto.
  - now rewrite <- binder_rfc.
  - intros R Ha Hb Hr. specialize (H6 R). pose proof (age_delta now p (pi_age id) Ha Hb Hr) as E. unfold ticketAgeTolerance in H6. lia.
  - intros k id' Hk Hn. apply (H7 k); [lia|]. now rewrite Nat.sub_0_r.
Qed.
Lemma psk_complete P now get ids binders context j id b p params :
  nth_error ids j = Some id -> nth_error binders j = Some b ->
  get (hexEncode (pi_identity id)) = Some p -> cipherSuiteMap (psk_suite p) = Some params ->
  b = binderOf P params p context -> (psk_isResumption p = true -> ticketAgeDelta now p (pi_age id) <= ticketAgeTolerance) ->
  (forall k id', (k < j)%nat -> nth_error ids k = Some id' -> get (hexEncode (pi_identity id')) = None) ->
  pskNegotiation P now get 0 ids binders context = Ok (Some (j, p, params)).
Proof.
  intros H1 H2 H3 H4 H5 H6 H7.
  enough (G : forall i ids j, nth_error ids j = Some id -> nth_error binders (i + j) = Some b ->
    (forall k id', (k < j)%nat -> nth_error ids k = Some id' -> get (hexEncode (pi_identity id')) = None) ->
    pskNegotiation P now get i ids binders context = Ok (Some ((i + j)%nat, p, params))) by (apply (G 0%nat); auto).
  clear ids j H1 H2 H7. intros i ids. revert i. induction ids as [|id0 ids IH]; intros i [|j] H1 H2 H7; try discriminate.
  - injection H1 as ->. cbn [pskNegotiation]. rewrite H3. rewrite Nat.add_0_r in *.
    assert (E : psk_isResumption p && (ticketAgeTolerance <? ticketAgeDelta now p (pi_age id)) = false).
    { destruct (psk_isResumption p); auto. apply N.ltb_ge. auto. }
    rewrite E, H4, H2, H5, beqb_refl. reflexivity.
  - cbn [pskNegotiation]. rewrite (H7 0%nat id0) by (auto; lia). rewrite Nat.add_succ_r in *.
    apply (IH (S i) j); auto. intros k id' Hk Hn. apply (H7 (S k)); [lia|exact Hn].
Qed.
