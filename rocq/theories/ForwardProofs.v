(** The steps of a handshake between ends that suit each other do not fail. *)
From Verif Require Import Base Syntax Frame Record Handshake Crypto CryptoSpec CryptoProofs Messages MessageSpec MessageProofs MessageProofs2 MessageProofs3 Pki SigSpec Negotiation NegotiationProofs Machine MachineProofs Cookie Client Server StepProofs CtxProofs Conn ConnSpec RunSpec RunProofs SessionSpec HelloProofs ClientSession AgreeSpec CompleteSpec.
From Verif Require CrashProofs2.

(** ** Sizes *)

Lemma len_vector h b : len (vector h b) = N.of_nat h + len b.
Proof. unfold vector. now rewrite len_app, len_be. Qed.
Lemma len_nums16 l : len (nums16 l) = 2 * N.of_nat (List.length l).
Proof. induction l as [|n l IH]; [reflexivity|]. unfold nums16 in *. cbn [map concat]. rewrite len_app, IH, len_be. cbn [List.length]. lia. Qed.
Lemma len_nums8 l : len (concat (map (be 1) l)) = N.of_nat (List.length l).
Proof. induction l as [|n l IH]; [reflexivity|]. cbn [map concat]. rewrite len_app, IH, len_be. cbn [List.length]. lia. Qed.
Lemma len_names (l : list bytes) : Forall (fun p : bytes => 1 <= len p <= 255) l -> 2 * N.of_nat (List.length l) <= len (names_wire l) <= 256 * N.of_nat (List.length l).
Proof.
  induction 1 as [|p l H _ IH]; [cbn; lia|]. unfold names_wire in *. cbn [map concat]. rewrite len_app, len_vector. cbn [List.length]. lia.
Qed.
Lemma share_size_max g : share_size g <= 1024.
Proof. destruct g as [|p]; [cbn; lia|]. cbn [share_size]. do 9 (try (destruct p as [p|p|]; try (cbn; lia))). Qed.
Lemma len_shares l : forallb share_fits l = true -> len (shares_wire l) <= 1028 * N.of_nat (List.length l).
Proof.
  induction l as [|k l IH]; [cbn; lia|]. cbn [forallb]. intros H. apply andb_true_iff in H. destruct H as [Hk H]. specialize (IH H).
  unfold share_fits in Hk. apply andb_true_iff in Hk. destruct Hk as [Hk _]. apply andb_true_iff in Hk. destruct Hk as [_ Hk]. apply N.eqb_eq in Hk.
  pose proof (share_size_max (ks_group k)). unfold shares_wire in *. cbn [map concat]. rewrite len_app. unfold share_wire at 1. rewrite len_app, len_be, len_vector. cbn [List.length]. lia.
Qed.
Lemma exts_len_app a b : len (exts_wire (a ++ b)) = len (exts_wire a) + len (exts_wire b).
Proof. unfold exts_wire. now rewrite map_app, concat_app, len_app. Qed.
Lemma ext_len t d : len (exts_wire [mkExt t d]) = 4 + len d.
Proof. unfold exts_wire. cbn [map concat]. rewrite app_nil_r. unfold ext_wire. cbn [e_type e_data]. rewrite len_app, len_be, len_vector. lia. Qed.
Lemma sized_true lo hi b : lo <= len b <= hi -> MessageSpec.sized lo hi b = true.
Proof. intros [A B]. unfold MessageSpec.sized. apply andb_true_iff. split; now apply N.leb_le. Qed.

(** ** Extensions *)

Definition ext_made (p : N * extbody) : ext := mkExt (fst p) (xb_wire (snd p)).
Lemma replace_none l t d : of_type t l = [] -> el_replace l t d = None.
Proof.
  induction l as [|e l IH]; [reflexivity|]. cbn [of_type filter el_replace]. destruct (e_type e =? t); [discriminate|]. intros H. now rewrite (IH H).
Qed.
Lemma add_new l t x : xb_fits x = true -> of_type t l = [] -> el_add l t (xb_marshal x) = Ok (l ++ [ext_made (t, x)]).
Proof.
  intros F O. unfold el_add. rewrite (proj2 (xb_is x (xb_wire x)) (conj F eq_refl)). cbn [bind]. now rewrite (replace_none _ _ _ O).
Qed.
(** A parser that finds one extension of its type, or none. *)
Lemma parse_miss {S} l t (un : S -> bytes -> res S) found s : of_type t l = [] -> el_parse_one l t un found s = Ok (found, s).
Proof. induction l as [|e l IH]; [reflexivity|]. cbn [of_type filter el_parse_one]. destruct (e_type e =? t); [discriminate|exact IH]. Qed.
Lemma parse_hit {S} l t (un : S -> bytes -> res S) found s s' e : of_type t l = [e] -> existsb (N.eqb t) found = false -> un s (e_data e) = Ok s' ->
  el_parse_one l t un found s = Ok (t :: found, s').
Proof.
  intros O F U. induction l as [|x l IH]; [discriminate|]. cbn [of_type filter el_parse_one] in *. destruct (e_type x =? t).
  - injection O as -> O. rewrite F, U. cbn [bind]. now apply parse_miss.
  - auto.
Qed.
Lemma find_hit {A} l t (un : bytes -> res (A * nat)) e : of_type t l = [e] -> el_find l t un = Some (safeUnmarshal un (e_data e)).
Proof. induction l as [|x l IH]; [discriminate|]. cbn [of_type filter el_find]. destruct (e_type x =? t); [now intros [= -> _]|exact IH]. Qed.

(** ** The ClientHello *)

Section Start.
Variables (Q : oracle -> Prop) (P : prims).

Lemma shares_forward o groups : Q o -> (forall g, In g groups -> makes_keys Q P g) -> forall n, exists shares dh, client_shares P (o_keys o) n groups = Ok (shares, dh) /\
  forallb share_fits shares = true /\ (forall k, In k shares -> exists priv, own_key Q P (ks_group k) (ks_data k) priv) /\
  (forall g, In g groups -> dh_lookup g dh <> None) /\ (forall g priv, In (g, priv) dh -> exists pub, own_key Q P g pub priv).
Proof.
  intros Qo. induction groups as [|g groups IH]; intros M n.
  - exists [], []. repeat split; contradiction.
  - destruct (M g (or_introl eq_refl)) as [F K]. destruct (K o n Qo) as (pub & priv & N & L & L1). destruct (IH (fun g H => M g (or_intror H)) (S n)) as (shares & dh & C & Fs & Ow & Lk & Od).
    exists (mkKs g pub :: shares), (dh ++ [(g, priv)]). cbn [client_shares]. rewrite N. cbn [bind]. rewrite C. cbn [bind]. split; [reflexivity|]. split; [|split; [|split]].
    + cbn [forallb]. rewrite Fs, andb_true_r. unfold share_fits. cbn [ks_group ks_data]. rewrite F, L, N.eqb_refl. cbn [andb]. apply N.leb_le. lia.
    + intros k [<-|H]; [|auto]. exists priv, o, n. auto.
    + assert (forall g' l, dh_lookup g' l <> None -> dh_lookup g' (l ++ [(g, priv)]) <> None) as A1.
      { intros g' l. induction l as [|[a b] l IHl]; cbn [dh_lookup app]; [congruence|]. destruct (a =? g'); [discriminate|exact IHl]. }
      assert (forall l, dh_lookup g (l ++ [(g, priv)]) <> None) as A2.
      { intros l. induction l as [|[a b] l IHl]; cbn [dh_lookup app]; [rewrite N.eqb_refl; discriminate|]. destruct (a =? g); [discriminate|exact IHl]. }
      intros g' [<-|H]; [apply A2|apply A1, Lk, H].
    + intros g' pr H. apply in_app_or in H. destruct H as [H|[[= <- <-]|[]]]; [exact (Od _ _ H)|]. exists pub, o, n. auto.
Qed.

(** What the ClientHello says. *)
Definition hello_says (cfg : config) (shares : list kshare) : list (N * extbody) :=
  [(43, XVersionsClient [tls13Version]); (0, XServerName (cf_serverName cfg)); (51, XKeyShareClient shares); (10, XSupportedGroups (cf_groups cfg));
   (13, XSignatureAlgorithms (cf_signatureSchemes cfg))] ++
  match cf_nextProtos cfg with [] => [] | l => [(16, XAlpn l)] end ++ match cf_pskModes cfg with [] => [] | l => [(45, XPskModes l)] end.
Definition hello_exts (cfg : config) (shares : list kshare) : list ext := map ext_made (hello_says cfg shares).
Definition hello_of (cfg : config) (random : bytes) (shares : list kshare) : clientHello := mkCh tls12Version random [] (cf_cipherSuites cfg) (hello_exts cfg shares).

Record willing (cfg : config) (shares : list kshare) : Prop := mkWilling {
  wl_modest : modest cfg; wl_suites : cf_cipherSuites cfg <> []; wl_groups : cf_groups cfg <> [] /\ Forall (fun g => u16_fits g = true) (cf_groups cfg);
  wl_schemes : cf_signatureSchemes cfg <> []; wl_shares : forallb share_fits shares = true; wl_same : map ks_group shares = cf_groups cfg }.

Lemma forallb_u16 l : Forall (fun s => u16_fits s = true) l -> forallb u16_fits l = true.
Proof. induction 1 as [|s l H _ IH]; [reflexivity|]. cbn [forallb]. now rewrite H. Qed.
Lemma some_length {A} (l : list A) : l <> [] -> (1 <= List.length l)%nat.
Proof. destruct l; [congruence|cbn; lia]. Qed.

Lemma says_fits cfg shares : willing cfg shares -> Forall (fun p => xb_fits (snd p) = true) (hello_says cfg shares).
Proof.
  intros [[N1 [S1 S2] G [C1 C2] [Pr1 Pr2] [Mo1 Mo2]] Su [Gr1 Gr2] Sc Sh Sm]. apply some_length in Gr1, Sc.
  assert (List.length shares = List.length (cf_groups cfg)) as L by (now rewrite <- Sm, map_length).
  unfold hello_says. apply Forall_app. split; [|apply Forall_app; split].
  - repeat constructor; cbn [snd xb_fits].
    + apply andb_true_iff. split; [apply sized_true; lia|]. apply sized_true. rewrite len_app, len_be, len_vector. lia.
    + rewrite Sh. apply sized_true. pose proof (len_shares _ Sh). lia.
    + rewrite forallb_u16 by exact Gr2. apply sized_true. rewrite len_nums16. lia.
    + rewrite forallb_u16 by exact C1. apply sized_true. rewrite len_nums16. lia.
  - destruct (cf_nextProtos cfg) as [|p l]; [constructor|]. constructor; [|constructor]. cbn [snd xb_fits]. apply andb_true_iff. split.
    + apply forallb_forall. intros x Hx. apply sized_true. rewrite Forall_forall in Pr1. auto.
    + apply sized_true. pose proof (len_names _ Pr1) as Hn. assert (1 <= List.length (p :: l))%nat as Hl by (cbn; lia). revert Hn Hl Pr2. generalize (p :: l). intros l0 Hn Hl Pr2. change (list byte) with bytes in *. lia.
  - destruct (cf_pskModes cfg) as [|p l]; [constructor|]. constructor; [|constructor]. cbn [snd xb_fits]. apply andb_true_iff. split.
    + apply forallb_forall. intros x Hx. rewrite Forall_forall in Mo1. apply N.ltb_lt. auto.
    + apply sized_true. rewrite len_nums8. assert (1 <= List.length (p :: l))%nat as Hl by (cbn; lia). lia.
Qed.
Lemma hello_exts_len cfg shares : willing cfg shares -> len (exts_wire (hello_exts cfg shares)) <= 60000.
Proof.
  intros [[N1 [S1 S2] G [C1 C2] [Pr1 Pr2] [Mo1 Mo2]] Su [Gr1 Gr2] Sc Sh Sm].
  assert (List.length shares = List.length (cf_groups cfg)) as L by (now rewrite <- Sm, map_length).
  pose proof (len_shares _ Sh). pose proof (len_names _ Pr1).
  unfold hello_exts, hello_says. rewrite !map_app, !exts_len_app.
  assert (len (exts_wire (map ext_made (match cf_nextProtos cfg with [] => [] | l => [(16, XAlpn l)] end))) <= 6 + 256 * 64) as A1.
  { destruct (cf_nextProtos cfg) as [|p l]; [cbn; lia|]. cbn [map]. unfold ext_made. cbn [fst snd]. rewrite ext_len. cbn [xb_wire]. rewrite len_vector. change (list byte) with bytes in *. lia. }
  assert (len (exts_wire (map ext_made (match cf_pskModes cfg with [] => [] | l => [(45, XPskModes l)] end))) <= 6 + 256) as A2.
  { destruct (cf_pskModes cfg) as [|p l]; [cbn; lia|]. cbn [map]. unfold ext_made. cbn [fst snd]. rewrite ext_len. cbn [xb_wire]. rewrite len_vector, len_nums8. lia. }
  assert (forall a b c d e, exts_wire (map ext_made [a; b; c; d; e]) = exts_wire [ext_made a] ++ exts_wire [ext_made b] ++ exts_wire [ext_made c] ++ exts_wire [ext_made d] ++ exts_wire [ext_made e]) as Ex.
  { intros. unfold exts_wire. cbn [map concat]. now rewrite !app_nil_r. }
  revert A1 A2. generalize (len (exts_wire (map ext_made match cf_nextProtos cfg with [] => [] | p :: l => [(16, XAlpn (p :: l))] end))), (len (exts_wire (map ext_made match cf_pskModes cfg with [] => [] | p :: l => [(45, XPskModes (p :: l))] end))). intros a b A1 A2. 
  rewrite Ex, !len_app. unfold ext_made. cbn [fst snd]. rewrite !ext_len. cbn [xb_wire]. rewrite !len_vector, !len_app, !len_vector, !len_be, !len_nums16. cbn [List.length]. lia.
Qed.
Lemma says_types cfg shares : Forall (fun p => u16_fits (fst p) = true) (hello_says cfg shares).
Proof. unfold hello_says. apply Forall_app. split; [repeat constructor|]. apply Forall_app. split; [destruct (cf_nextProtos cfg)|destruct (cf_pskModes cfg)]; repeat constructor. Qed.
Lemma exts_fit_small l : Forall (fun p => u16_fits (fst p) = true) l -> len (exts_wire (map ext_made l)) <= 65535 -> exts_fit (map ext_made l) = true.
Proof.
  intros T L. unfold exts_fit. apply andb_true_iff. split; [|apply sized_true; lia].
  induction T as [|p l H _ IH]; [reflexivity|]. cbn [map forallb] in *. change (ext_made p :: map ext_made l) with ([ext_made p] ++ map ext_made l) in L. rewrite exts_len_app in L.
  rewrite IH by lia. rewrite andb_true_r. unfold ext_fits. cbn [ext_made e_type e_data]. rewrite H. apply sized_true. unfold ext_made in L. rewrite ext_len in L. lia.
Qed.
Lemma hello_fits cfg random shares : willing cfg shares -> len random = 32 -> ch_fits (hello_of cfg random shares) = true.
Proof.
  intros W R. unfold ch_fits, hello_of. cbn [ch_version ch_random ch_suites ch_exts]. pose proof (hello_exts_len _ _ W) as L. destruct W as [[N1 [S1 S2] G C Pr Mo] Su Gr Sc Sh Sm]. apply some_length in Su.
  rewrite R, N.eqb_refl, forallb_u16 by exact S1. rewrite sized_true by (rewrite len_nums16; lia). unfold hello_exts. rewrite exts_fit_small; [reflexivity|apply says_types|unfold hello_exts in L; lia].
Qed.
Lemma hello_short cfg random shares : willing cfg shares -> len random = 32 -> len (ch_wire (hello_of cfg random shares)) < 2 ^ 24.
Proof.
  intros W R. pose proof (hello_exts_len _ _ W) as L. destruct W as [[N1 [S1 S2] G C Pr Mo] Su Gr Sc Sh Sm].
  unfold ch_wire, hello_of. cbn [ch_version ch_random ch_suites ch_exts]. change (tls12Version =? 771) with true. cbv iota. rewrite !len_app, !len_vector, !len_be, len_nums16, R. change (len (@nil byte)) with 0. change (len [x00]) with 1. change (2 ^ 24) with 16777216. lia.
Qed.

(** [client_extensions] *)
Definition type_free (t : N) (l : list (N * extbody)) : bool := forallb (fun p => negb (fst p =? t)) l.
Lemma free_of_type t l : type_free t l = true -> of_type t (map ext_made l) = [].
Proof.
  induction l as [|[a x] l IH]; [reflexivity|]. cbn [type_free forallb map of_type filter fst]. cbn [ext_made e_type fst]. destruct (a =? t); cbn [negb andb]; [discriminate|exact IH].
Qed.
Lemma add_said l t x : xb_fits x = true -> type_free t l = true -> el_add (map ext_made l) t (xb_marshal x) = Ok (map ext_made (l ++ [(t, x)])).
Proof. intros F T. rewrite add_new by (auto using free_of_type). now rewrite map_app. Qed.
Lemma extensions_forward cfg st shares : willing cfg shares -> st_serverName st = cf_serverName cfg -> st_nextProtos st = cf_nextProtos cfg -> st_cookie st = None ->
  client_extensions cfg st shares = Ok (hello_exts cfg shares).
Proof.
  intros W E1 E2 E3. pose proof (says_fits _ _ W) as F. unfold client_extensions. rewrite E1, E2, E3. unfold hello_exts. unfold hello_says in *. apply Forall_app in F. destruct F as [F1 F2]. apply Forall_app in F2. destruct F2 as [F2 F3].
  inversion F1 as [|? ? X1 F1b]; subst. inversion F1b as [|? ? X2 F1c]; subst. inversion F1c as [|? ? X3 F1d]; subst. inversion F1d as [|? ? X4 F1e]; subst. inversion F1e as [|? ? X5 _]; subst. clear F1 F1b F1c F1d F1e. cbn [snd] in *.
  change (el_add [] etSupportedVersions (versions_client_marshal [tls13Version])) with (el_add (map ext_made []) 43 (xb_marshal (XVersionsClient [tls13Version]))). rewrite add_said by auto. cbn [bind].
  change (sni_marshal (cf_serverName cfg)) with (xb_marshal (XServerName (cf_serverName cfg))). change etServerName with 0. rewrite add_said by auto. cbn [bind].
  change (ks_client_marshal shares) with (xb_marshal (XKeyShareClient shares)). change etKeyShare with 51. rewrite add_said by auto. cbn [bind].
  change (list16_marshal (cf_groups cfg)) with (xb_marshal (XSupportedGroups (cf_groups cfg))). change etSupportedGroups with 10. rewrite add_said by auto. cbn [bind].
  change (list16_marshal (cf_signatureSchemes cfg)) with (xb_marshal (XSignatureAlgorithms (cf_signatureSchemes cfg))). change etSignatureAlgorithms with 13. rewrite add_said by auto. cbn [bind app].
  destruct (cf_nextProtos cfg) as [|p l] eqn:Ep; cbn [app].
  - cbn [bind]. destruct (cf_pskModes cfg) as [|m ms] eqn:Em; [reflexivity|]. inversion F3 as [|? ? X6 _]; subst. change (modes_marshal (m :: ms)) with (xb_marshal (XPskModes (m :: ms))). change etPSKKeyExchangeModes with 45.
    rewrite add_said by auto. reflexivity.
  - inversion F2 as [|? ? X6 _]; subst. change (alpn_marshal (p :: l)) with (xb_marshal (XAlpn (p :: l))). change etALPN with 16. rewrite add_said by auto. cbn [bind app].
    destruct (cf_pskModes cfg) as [|m ms] eqn:Em; [reflexivity|]. inversion F3 as [|? ? X7 _]; subst. change (modes_marshal (m :: ms)) with (xb_marshal (XPskModes (m :: ms))). change etPSKKeyExchangeModes with 45.
    rewrite add_said by auto. reflexivity.
Qed.
End Start.

(** ** Messages *)

Definition says (m : hmsg) (b : body) : Prop := hm_type m = body_type b /\ hm_body m = body_wire b.
Lemma new_forward w b : body_fits b = true -> exists w' m, newMessage w b = (w', Ok m) /\ says m b /\ kept w w'.
Proof.
  intros F. unfold newMessage, makeMessage. rewrite (proj2 (body_is b (body_wire b)) (conj F eq_refl)). cbn [messageFromBody or_alert]. eexists _, _. split; [reflexivity|]. split; [split; reflexivity|].
  unfold kept, w_kind. repeat split.
Qed.

(** ** Signatures *)

Lemma kind_valid X alg key : same_kind X alg key <-> schemeValidForKey X alg key = true.
Proof.
  unfold same_kind, schemeValidForKey, sigMap, RSA_PKCS1_SHA1, RSA_PKCS1_SHA256, RSA_PKCS1_SHA384, RSA_PKCS1_SHA512, ECDSA_P256_SHA256, ECDSA_P384_SHA384, ECDSA_P521_SHA512, RSA_PSS_SHA256, RSA_PSS_SHA384, RSA_PSS_SHA512.
  assert (forall l, In alg l <-> existsb (N.eqb alg) l = true) as I.
  { intros l. rewrite existsb_exists. split; [intros H; exists alg; split; [exact H|apply N.eqb_refl]|intros (x & Hx & Ex); apply N.eqb_eq in Ex; now subst x]. }
  destruct (x_privtype X key) as [|g|]; [rewrite I|rewrite I|split; [contradiction|discriminate]]; cbn [existsb];
    repeat (match goal with |- context[alg =? ?c] => destruct (N.eqb_spec alg c) as [->|] end; [cbn; tauto|]); cbn; tauto.
Qed.
Lemma scheme_code alg kt s h : scheme_for alg kt s h -> hashMap alg = Some h /\ h <> SHA1 /\ sig_primitive alg kt = Some s /\ u16_fits alg = true.
Proof. intros H. destruct H; cbn; repeat split; discriminate. Qed.
Lemma sign_forward Qs P X alg c leaf rest o hh : signs_with Qs X alg c -> Qs o -> kp_chain c = leaf :: rest ->
  exists sg, cv_sign P X alg (kp_key c) hh (o_sig o) = Ok (mkCv alg sg) /\ cv_verify P X (mkCv alg sg) leaf hh = Ok tt /\ body_fits (BCertificateVerify (mkCv alg sg)) = true /\
    len (body_wire (BCertificateVerify (mkCv alg sg))) <= 16363.
Proof.
  intros (leaf' & rest' & s & h & Ch & Ty & Sc & Sg) Qo E. rewrite E in Ch. injection Ch as <- <-. destruct (scheme_code _ _ _ _ Sc) as (Hh & Hs & Hp & Hu).
  destruct (Sg o (digest P h (encodeSignatureInput hh)) Qo) as (sg & S1 & S2 & S3). exists sg.
  unfold cv_sign, sign, cv_verify, verify. cbn [cv_alg cv_sig]. rewrite Ty, Hh, Hp.
  split; [destruct h; try congruence; rewrite S1; reflexivity|]. split; [destruct h; try congruence; rewrite S2; reflexivity|].
  split; [cbn [body_fits cv_alg cv_sig]; rewrite Hu; apply sized_true; lia|]. cbn [body_wire cv_alg cv_sig]. rewrite len_app, len_be, len_vector. lia.
Qed.

(** ** Negotiation *)

Lemma suite_forward offered supported : (exists s, In s offered /\ In s supported) -> exists s, cipherSuiteNegotiation None offered supported = Ok s /\ In s offered /\ In s supported.
Proof.
  intros (s & A & B). induction offered as [|s1 l IH]; [contradiction|]. cbn [cipherSuiteNegotiation]. destruct (existsb (N.eqb s1) supported) eqn:Ex.
  - exists s1. split; [reflexivity|]. split; [now left|]. apply existsb_exists in Ex. destruct Ex as (x & Hx & Ex). apply N.eqb_eq in Ex. now subst x.
  - destruct A as [->|A].
    + exfalso. assert (existsb (N.eqb s) supported = true) as K by (apply existsb_exists; exists s; split; [exact B|apply N.eqb_refl]). congruence.
    + destruct (IH A) as (s2 & H1 & H2 & H3). exists s2. split; [exact H1|]. split; [now right|exact H3].
Qed.
Lemma alpn_forward offered supported : exists p, alpnNegotiation None offered supported = Ok p /\ (p = [] \/ In p offered).
Proof.
  unfold alpnNegotiation. destruct (alpn_loop None offered supported) as [s|] eqn:E; [|exists []; auto]. exists s. split; [reflexivity|]. right.
  apply alpn_loop_first in E. destruct E as (pre & post & -> & _). apply in_or_app. right. now left.
Qed.
Section Dh.
Variables (Qc Qs : oracle -> Prop) (P : prims) (o : oracle).
Hypothesis Qo : Qs o.
Lemma try_forward share groups priv : own_key Qc P (ks_group share) (ks_data share) priv -> (In (ks_group share) groups -> makes_keys Qs P (ks_group share) /\ agrees Qc Qs P (ks_group share)) ->
  forall n, (~ In (ks_group share) groups /\ dh_try P (o_keys o) n share groups = Ok (n, None)) \/
    exists m pub priv' z, dh_try P (o_keys o) n share groups = Ok (m, Some (ks_group share, pub, z)) /\ In (ks_group share) groups /\ newKeyShare P (o_keys o n) (ks_group share) = Ok (pub, priv') /\
      share_fits (mkKs (ks_group share) pub) = true.
Proof.
  intros Ow. induction groups as [|g groups IH]; intros M n; cbn [dh_try]; [left; auto|].
  destruct (N.eqb_spec g (ks_group share)) as [->|Ne]; cbn [negb].
  - right. destruct (M (or_introl eq_refl)) as [[F Mk] Ag]. destruct (Mk o n Qo) as (pub & pr & N & L & L1). destruct (Ag _ _ _ _ Ow (ex_intro _ o (ex_intro _ n (conj Qo N)))) as (z & Z).
    rewrite N, Z. exists (S n), pub, pr, z. split; [reflexivity|]. split; [now left|]. split; [reflexivity|]. unfold share_fits. cbn [ks_group ks_data]. rewrite F, L, N.eqb_refl. cbn [andb]. apply N.leb_le. lia.
  - destruct (IH (fun H => M (or_intror H)) n) as [[H1 H2]|(m & pub & pr & z & H1 & H2 & H3)].
    + left. split; [intros [H|H]; congruence|exact H2].
    + right. exists m, pub, pr, z. split; [exact H1|]. split; [now right|exact H3].
Qed.
Lemma dh_forward shares groups : (forall k, In k shares -> exists priv, own_key Qc P (ks_group k) (ks_data k) priv) ->
  (forall k, In k shares -> In (ks_group k) groups -> makes_keys Qs P (ks_group k) /\ agrees Qc Qs P (ks_group k)) -> (exists k, In k shares /\ In (ks_group k) groups) ->
  forall n, exists m g pub z, dhNegotiation P (o_keys o) n shares groups = Ok (m, Some (g, pub, z)) /\ In g (map ks_group shares) /\ share_fits (mkKs g pub) = true /\
    In g groups /\ exists priv, own_key Qs P g pub priv.
Proof.
  intros Ow M (k & A & B). induction shares as [|s shares IH]; [contradiction|]. intros n. cbn [dhNegotiation]. destruct (Ow s (or_introl eq_refl)) as [priv Os].
  destruct (try_forward s groups priv Os (M s (or_introl eq_refl)) n) as [[H1 H2]|(m & pub & pr & z & H1 & H2 & H3 & H4)].
  - rewrite H2. cbn [bind]. destruct A as [->|A]; [contradiction|]. destruct (IH (fun k H => Ow k (or_intror H)) (fun k H => M k (or_intror H)) A n) as (m & g & pub & z & K1 & K2 & K3).
    exists m, g, pub, z. split; [exact K1|]. split; [now right|exact K3].
  - rewrite H1. cbn [bind]. exists m, (ks_group s), pub, z. split; [reflexivity|]. split; [now left|]. split; [exact H4|]. split; [exact H2|]. exists pr, o, n. auto.
Qed.
End Dh.
Lemma certs_for_forward X name certs : name <> [] -> (forall c, In c certs -> kp_chain c <> []) -> exists cs, certs_for X name certs = Ok cs /\ forall c, In c certs -> serves X name c -> In c cs.
Proof.
  intros Nn. induction certs as [|d certs IH]; intros Hc; cbn [certs_for]; [exists []; split; [reflexivity|contradiction]|].
  destruct (IH (fun c H => Hc c (or_intror H))) as (cs & -> & Hs). destruct (kp_chain d) as [|leaf rest] eqn:K; [exfalso; exact (Hc d (or_introl eq_refl) K)|]. cbn [bind].
  eexists. split; [reflexivity|]. intros c [<-|H] Sv.
  - apply in_or_app. left. destruct Sv as (leaf' & rest' & K' & In'). rewrite K in K'. injection K' as <- <-. apply in_map_iff. exists name. split; [reflexivity|]. apply filter_In. split; [exact In'|].
    rewrite (proj2 (beqb_eq name name) eq_refl), andb_true_r. destruct name; [congruence|reflexivity].
  - apply in_or_app. right. auto.
Qed.
Lemma scheme_forward X schemes certs : (exists c alg, In c certs /\ In alg schemes /\ schemeValidForKey X alg (kp_key c) = true) -> exists c s, cert_scheme X schemes certs = Ok (c, s).
Proof.
  intros (c & alg & A & B & V). induction certs as [|d certs IH]; [contradiction|]. cbn [cert_scheme]. destruct (find (fun s => schemeValidForKey X s (kp_key d)) schemes) as [s|] eqn:F; [eauto|].
  destruct A as [->|A]; [|auto]. exfalso. rewrite (find_none _ _ F alg B) in V. discriminate.
Qed.
Lemma selection_forward X name schemes certs : name <> [] -> (forall c, In c certs -> kp_chain c <> []) ->
  (exists c alg, In c certs /\ serves X name c /\ In alg schemes /\ same_kind X alg (kp_key c)) ->
  exists c s, certificateSelection X (Some name) schemes certs = Ok (c, s) /\ In c certs /\ serves X name c /\ first_scheme X schemes s (kp_key c).
Proof.
  intros Nn Hc (c & alg & A & B & C & D). unfold certificateSelection. destruct (certs_for_forward X name certs Nn Hc) as (cs & Ec & Hs). rewrite Ec. cbn [bind]. pose proof (Hs c A B) as Ic.
  destruct (scheme_forward X schemes cs) as (c' & s & Es); [exists c, alg; apply kind_valid in D; auto|]. exists c', s. split; [destruct cs; [contradiction|exact Es]|].
  apply cert_scheme_ok in Es. destruct Es as [(pre & post & Eq & _) (pre' & post' & Eq' & V & Hp)].
  destruct (certs_for_in _ _ _ _ c' Ec) as (H1 & _ & H3); [rewrite Eq; apply in_or_app; right; now left|]. split; [exact H1|]. split; [exact H3|].
  exists pre', post'. split; [exact Eq'|]. split; [now apply kind_valid|]. apply Forall_forall. intros a Ha K. apply kind_valid in K. exact (Hp a Ha K).
Qed.

(** ** Steps *)

Lemma agreement_back P g pub priv : keyAgreement P g pub priv <> Fuel.
Proof. unfold keyAgreement, padLeft. repeat first [discriminate|match goal with |- context [if ?b then _ else _] => destruct b | |- context [match ?b with Some _ => _ | None => _ end] => destruct b end]. Qed.
Lemma dh_in g dh priv : dh_lookup g dh = Some priv -> In (g, priv) dh.
Proof. induction dh as [|[a b] dh IH]; cbn [dh_lookup]; [discriminate|]. destruct (N.eqb_spec a g) as [->|]; [intros [= ->]; now left|right; auto]. Qed.

Section Steps.
Variables (Qc Qs : oracle -> Prop) (E : env) (ccfg scfg : config) (cpsks : cache).
Notation P := (v_prims E).
Notation X := (v_pki E).
Hypothesis cp : compatible Qc Qs E ccfg scfg cpsks.
Hypothesis msized : mac_sized P.
Hypothesis chandler : cf_extensionHandler ccfg = None.
Hypothesis shandler : cf_extensionHandler scfg = None.
Hypothesis curves : curves_agree Qc Qs P.
Notation cc := (cfg_init ccfg).
Notation sc := (cfg_init scfg).

Lemma some_in {A} (l : list A) x : In x l -> l <> [].
Proof. destruct l; [contradiction|discriminate]. Qed.

(** The client's keys suit the shares. *)
Definition has_keys (dh : list (N * bytes)) : Prop := (forall g, In g (cf_groups cc) -> dh_lookup g dh <> None) /\ forall g priv, In (g, priv) dh -> exists pub, own_key Qc P g pub priv.
(** A share that the server has made. *)
Definition served (g : N) (pub : bytes) : Prop := In g (cf_groups sc) /\ exists priv, own_key Qs P g pub priv.
Definition hello_msg (hello : hmsg) (random : bytes) (shares : list kshare) : Prop := says hello (BClientHello (hello_of cc random shares)) /\ len random = 32 /\ willing cc shares /\
  forall k, In k shares -> exists priv, own_key Qc P (ks_group k) (ks_data k) priv.

Lemma start_forward o w st : Qc o -> w_cfg w = cc -> w_psks w = start_cache ccfg cpsks -> w_kind w = (false, false) -> st_serverName st = cf_serverName ccfg -> st_nextProtos st = cf_nextProtos ccfg ->
  st_cookie st = None -> st_params st = no_params ->
  exists w' ws random shares, client_start P o w st = (w', Ok (CWaitSH ws, [QueueHandshakeMessage (ws_hello ws); SendQueuedHandshake], false)) /\ hello_msg (ws_hello ws) random shares /\
    has_keys (ws_dh ws) /\ ws_params ws = set_sending no_params (cf_serverName ccfg) false /\ ws_first ws = st_first st /\ ws_hrr ws = st_hrr st.
Proof.
  intros Qo Hc Hp Hk E1 E2 E3 E4. destruct cp as [Np Nc Na Mo Cr Sr Su Sus Gr Ks Sh Ch Ce Ces].
  destruct (shares_forward Qc P o (cf_groups cc) Qo Ks 0) as (shares & dh & Cs & Fs & Ow & Lk & Od). destruct (Cr o Qo) as (random & Ra & Rl).
  assert (willing cc shares) as W.
  { constructor; [exact Mo| | | |exact Fs|eapply shares_groups; exact Cs].
    - destruct Su as (s & A & _). exact (some_in _ _ A).
    - destruct Gr as (g & A & _). split; [exact (some_in _ _ A)|]. apply Forall_forall. intros g' Hg. exact (proj1 (Ks g' Hg)).
    - destruct Ce as (c & alg & _ & _ & A & _). exact (some_in _ _ A). }
  unfold client_start. rewrite Hc. change (cf_psks cc) with (match cf_psks ccfg with None => Some 0 | p => p end).
  change (cf_extensionHandler cc) with (cf_extensionHandler ccfg).
  rewrite Cs. cbn [or_alert sbind]. rewrite Ra. rewrite (extensions_forward cc st shares W E1 E2 E3). cbn [or_alert sbind]. unfold ext_send. change (cf_extensionHandler cc) with (cf_extensionHandler ccfg). rewrite chandler. cbn [sbind].
  assert (wireVersion (x_in (w_ctx w)) = tls12Version) as V. { unfold wireVersion. unfold w_kind in Hk. injection Hk as -> _. reflexivity. }
  rewrite V, E1, E2, E4, Hp, Np. change (mkCh tls12Version random [] (cf_cipherSuites cc) (hello_exts cc shares)) with (hello_of cc random shares).
  destruct (new_forward w (BClientHello (hello_of cc random shares)) (hello_fits _ _ _ W Rl)) as (w1 & hello & Nm & Sm & Kw). rewrite Nm. cbn [sbind].
  exists (ctx_setVersion w1 tls12Version), (mkWsh (cf_serverName ccfg) (cf_nextProtos ccfg) (set_sending no_params (cf_serverName ccfg) false) dh None [] (st_first st) (st_hrr st) hello), random, shares.
  split; [destruct (cf_psks ccfg); reflexivity|]. cbn [ws_hello ws_dh ws_params ws_first ws_hrr]. split; [split; [exact Sm|split; [exact Rl|split; [exact W|exact Ow]]]|]. split; [split; [exact Lk|exact Od]|auto].
Qed.
Lemma hello_len hello random shares : hello_msg hello random shares -> len (hm_body hello) < 2 ^ 24.
Proof. intros ([_ ->] & R & W & _). now apply hello_short. Qed.

(** What the server reads in it. *)
Definition hello_x (cfg : config) (shares : list kshare) : chexts :=
  mkCx [tls13Version] (cf_serverName cfg) (cf_groups cfg) (cf_signatureSchemes cfg) shares ([], []) (cf_nextProtos cfg) (cf_pskModes cfg) [].
Lemma xb_made x : xb_fits x = true -> xb_marshal x = Ok (xb_wire x).
Proof. intros F. now apply xb_is. Qed.
Lemma hello_parse cfg shares : willing cfg shares -> exists found, el_parse (hello_exts cfg shares) ch_dsts no_chexts = Ok (found, hello_x cfg shares) /\
  existsb (N.eqb etSupportedVersions) found = true /\ existsb (N.eqb etServerName) found = true /\ existsb (N.eqb etSupportedGroups) found = true /\
  existsb (N.eqb etSignatureAlgorithms) found = true /\ existsb (N.eqb etEarlyData) found = false.
Proof.
  intros W. pose proof (says_fits _ _ W) as F. unfold hello_says in F. apply Forall_app in F. destruct F as [F1 F2]. apply Forall_app in F2. destruct F2 as [F2 F3].
  inversion F1 as [|? ? X1 F1b]; subst. inversion F1b as [|? ? X2 F1c]; subst. inversion F1c as [|? ? X3 F1d]; subst. inversion F1d as [|? ? X4 F1e]; subst. inversion F1e as [|? ? X5 _]; subst. clear F1 F1b F1c F1d F1e. cbn [snd] in *.
  apply xb_made in X1, X2, X3, X4, X5. cbn [xb_marshal] in X1, X2, X3, X4, X5.
  pose proof (safe_ok _ _ _ (versions_client_back _ _ X1)) as B1. pose proof (safe_ok _ _ _ (sni_back _ _ X2)) as B2. pose proof (safe_ok _ _ _ (ks_client_back _ _ X3)) as B3.
  pose proof (safe_ok _ _ _ (list16_back _ _ X4)) as B4. pose proof (safe_ok _ _ _ (list16_back _ _ X5)) as B5.
  unfold hello_x.
  assert (forall t, t <> 16 -> t <> 45 -> of_type t (hello_exts cfg shares) = of_type t (map ext_made [(43, XVersionsClient [tls13Version]); (0, XServerName (cf_serverName cfg)); (51, XKeyShareClient shares); (10, XSupportedGroups (cf_groups cfg));
   (13, XSignatureAlgorithms (cf_signatureSchemes cfg))])) as Oth.
  { intros t T1 T2. unfold hello_exts, hello_says. rewrite !map_app. unfold of_type. rewrite !filter_app. rewrite <- (app_nil_r (filter _ (map ext_made [_; _; _; _; _]))) at 2. f_equal.
    assert (forall p l, fst p <> t -> filter (fun e => e_type e =? t) (map ext_made (p :: l)) = filter (fun e => e_type e =? t) (map ext_made l)) as Sk.
    { intros p l Hp. cbn [map filter]. cbn [ext_made e_type]. destruct (N.eqb_spec (fst p) t); [congruence|reflexivity]. }
    destruct (cf_nextProtos cfg), (cf_pskModes cfg); rewrite ?Sk by (cbn [fst]; congruence); reflexivity. }
  assert (of_type 16 (hello_exts cfg shares) = map ext_made (match cf_nextProtos cfg with [] => [] | l => [(16, XAlpn l)] end)) as O16.
  { unfold hello_exts, hello_says. rewrite !map_app. unfold of_type. rewrite !filter_app. destruct (cf_nextProtos cfg), (cf_pskModes cfg); reflexivity. }
  assert (of_type 45 (hello_exts cfg shares) = map ext_made (match cf_pskModes cfg with [] => [] | l => [(45, XPskModes l)] end)) as O45.
  { unfold hello_exts, hello_says. rewrite !map_app. unfold of_type. rewrite !filter_app. destruct (cf_nextProtos cfg), (cf_pskModes cfg); reflexivity. }
  pose proof (Oth 43 ltac:(discriminate) ltac:(discriminate)) as O1. pose proof (Oth 0 ltac:(discriminate) ltac:(discriminate)) as O2. pose proof (Oth 51 ltac:(discriminate) ltac:(discriminate)) as O3.
  pose proof (Oth 10 ltac:(discriminate) ltac:(discriminate)) as O4. pose proof (Oth 13 ltac:(discriminate) ltac:(discriminate)) as O5. pose proof (Oth 42 ltac:(discriminate) ltac:(discriminate)) as O6.
  pose proof (Oth 41 ltac:(discriminate) ltac:(discriminate)) as O7. pose proof (Oth 44 ltac:(discriminate) ltac:(discriminate)) as O8. clear Oth.
  generalize dependent (hello_exts cfg shares). intros l O16 O45 O1 O2 O3 O4 O5 O6 O7 O8.
  unfold el_parse, ch_dsts. cbn [el_parse_all].
  change etSupportedVersions with 43 in *. change etServerName with 0 in *. change etSupportedGroups with 10 in *. change etSignatureAlgorithms with 13 in *. change etEarlyData with 42 in *. change etKeyShare with 51 in *.
  change etPreSharedKey with 41 in *. change etALPN with 16 in *. change etPSKKeyExchangeModes with 45 in *. change etCookie with 44 in *.
  erewrite (parse_hit l 43); [|exact O1|reflexivity|cbn [ext_made e_data snd]; rewrite B1; reflexivity]. cbn [bind].
  erewrite (parse_hit l 0); [|exact O2|reflexivity|cbn [ext_made e_data snd]; rewrite B2; reflexivity]. cbn [bind].
  erewrite (parse_hit l 10); [|exact O4|reflexivity|cbn [ext_made e_data snd]; rewrite B4; reflexivity]. cbn [bind].
  erewrite (parse_hit l 13); [|exact O5|reflexivity|cbn [ext_made e_data snd]; rewrite B5; reflexivity]. cbn [bind].
  rewrite (parse_miss l 42) by exact O6. cbn [bind].
  erewrite (parse_hit l 51); [|exact O3|reflexivity|cbn [ext_made e_data snd]; rewrite B3; reflexivity]. cbn [bind].
  rewrite (parse_miss l 41) by exact O7. cbn [bind cx_versions cx_name cx_groups cx_schemes cx_shares cx_psk cx_protos cx_modes cx_cookie no_chexts].
  destruct (cf_nextProtos cfg) as [|p ps] eqn:Ep.
  - rewrite (parse_miss l 16) by exact O16. cbn [bind]. destruct (cf_pskModes cfg) as [|m ms] eqn:Em.
    + rewrite (parse_miss l 45) by exact O45. cbn [bind]. rewrite (parse_miss l 44) by exact O8. cbn [bind]. eexists. repeat split.
    + inversion F3 as [|? ? X6 _]; subst. apply xb_made in X6. cbn [snd xb_marshal] in X6. pose proof (safe_ok _ _ _ (modes_back _ _ X6)) as B6.
      erewrite (parse_hit l 45); [|exact O45|reflexivity|cbn [ext_made e_data snd]; rewrite B6; reflexivity]. cbn [bind]. rewrite (parse_miss l 44) by exact O8. cbn [bind]. eexists. repeat split.
  - inversion F2 as [|? ? X6 _]; subst. apply xb_made in X6. cbn [snd xb_marshal] in X6. pose proof (safe_ok _ _ _ (alpn_back _ _ X6)) as B6.
    erewrite (parse_hit l 16); [|exact O16|reflexivity|cbn [ext_made e_data snd]; rewrite B6; reflexivity]. cbn [bind]. destruct (cf_pskModes cfg) as [|m ms] eqn:Em.
    + rewrite (parse_miss l 45) by exact O45. cbn [bind]. rewrite (parse_miss l 44) by exact O8. cbn [bind]. eexists. repeat split.
    + inversion F3 as [|? ? X7 _]; subst. apply xb_made in X7. cbn [snd xb_marshal] in X7. pose proof (safe_ok _ _ _ (modes_back _ _ X7)) as B7.
      erewrite (parse_hit l 45); [|exact O45|reflexivity|cbn [ext_made e_data snd]; rewrite B7; reflexivity]. cbn [bind]. rewrite (parse_miss l 44) by exact O8. cbn [bind]. eexists. repeat split.
Qed.

(** The server accepts it. *)
Definition chosen (random : bytes) (shares : list kshare) (n : snegotiated) (hm : hmsg) : Prop := exists suite ps g pub z cert scheme proto,
  n = mkNeg (mkPar false true false false false false suite (cf_serverName ccfg) proto) g pub (Some z) [] [] 0 (Some cert) scheme [] None None hm /\
  In suite (cf_cipherSuites cc) /\ cipherSuiteMap suite = Some ps /\ In g (cf_groups cc) /\ (share_fits (mkKs g pub) = true /\ served g pub) /\ (proto = [] \/ In proto (cf_nextProtos cc)) /\
  signs_with Qs X scheme cert /\ sendable X cert /\ believes Qc X ccfg cert.

Lemma no_psk_modes modes : pskModeNegotiation true false modes = (true, false).
Proof. unfold pskModeNegotiation. cbn [andb negb orb]. now rewrite orb_true_r. Qed.
Definition server_like (c : config) : Prop := cf_extensionHandler c = None /\ cf_groups c = cf_groups sc /\ cf_cipherSuites c = cf_cipherSuites sc /\ cf_requireCookie c = false /\
  cf_certificates c = cf_certificates scfg /\ cf_requireClientAuth c = false.
Lemma server_start_forward o w hm random shares : Qs o -> server_like (w_cfg w) -> w_kind w = (false, false) -> hello_msg hm random shares ->
  exists w' n, server_start P X o w hm = (w', Ok (SNegotiated n, [], false)) /\ chosen random shares n hm.
Proof.
  intros Qo (Hc1 & Hc2 & Hc3 & Hc4 & Hc5 & _) Hk ([T B] & R & W & Ow). pose proof (hello_fits _ _ _ W R) as F. apply (fun f => proj2 (body_is (BClientHello (hello_of cc random shares)) _) (conj f eq_refl)) in F. cbn [body_marshal] in F. rewrite <- B in F.
  destruct cp as [Np Nc Na Mo Cr Sr Su Sus Gr Ks Sh Ch Ce Ces].
  unfold server_start. rewrite T. cbn [body_type]. change (Byte.eqb htClientHello htClientHello) with true. cbn [negb].
  assert (wireVersion (x_in (w_ctx w)) = tls12Version) as V. { unfold wireVersion. unfold w_kind in Hk. injection Hk as -> _. reflexivity. }
  rewrite V. rewrite (safe_ok _ _ _ (ch_tls_back (hello_of cc random shares) _ tls12Version eq_refl ltac:(discriminate) F)). cbn [or_alert sbind ch_version hello_of ch_random ch_suites ch_exts].
  change (tls12Version =? tls12Version) with true. cbn [negb]. unfold ext_recv. rewrite Hc1. cbn [sbind set_exts].
  destruct (hello_parse cc shares W) as (found & Pa & F1 & F2 & F3 & F4 & F5). rewrite Pa. cbn [or_alert sbind]. rewrite F1. cbn [negb]. unfold hello_x. cbn [cx_versions cx_cookie cx_shares cx_psk cx_modes cx_name cx_schemes cx_protos].
  change (versionNegotiation [tls13Version] [tls13Version]) with (Some tls13Version). cbn [sbind ch_session ch_suites set_exts List.length Nat.eqb orb negb].
  assert (forall k, In k shares -> In (ks_group k) (cf_groups cc)) as Sg. { intros k Hk'. rewrite <- (wl_same _ _ W). now apply in_map. }
  destruct (dh_forward Qc Qs P o Qo shares (cf_groups sc)) with (n := 0%nat) as (m & g & pub & z & Dn & Ig & Sf & Si & So).
  { exact Ow. } { intros k A1 A2. exact (Sh _ (Sg _ A1) A2). }
  { destruct Gr as (g & A1 & A2). rewrite <- (wl_same _ _ W) in A1. apply in_map_iff in A1. destruct A1 as (k & <- & A1). exists k. auto. }
  rewrite Hc2, Dn. cbn [sbind]. unfold server_psk. cbn [cx_psk sbind]. rewrite no_psk_modes.
  destruct (suite_forward (cf_cipherSuites cc) (cf_cipherSuites sc) Su) as (suite & Cn & Is & Is'). cbn [ch_suites set_exts]. rewrite Hc3, Cn. cbn [or_alert sbind].
  unfold server_retry. rewrite Hc4. cbn [negb sbind andb]. unfold server_cert. rewrite F2, F3, F4. cbn [andb negb].
  cbn [cx_name cx_schemes]. rewrite Hc5. change (cf_serverName cc) with (cf_serverName ccfg).
  destruct (selection_forward X (cf_serverName ccfg) (cf_signatureSchemes cc) (cf_certificates scfg)) as (c & alg & Sel & Ic & Se & Fs).
  { destruct Mo as [M1 _ _ _ _ _]. intros Z. change (cf_serverName cc) with (cf_serverName ccfg) in M1. rewrite Z in M1. change (len []) with 0 in M1. lia. } { exact Ch. } { exact Ce. }
  match goal with |- context [certificateSelection ?a1 ?a2 ?a3 ?a4] => replace (certificateSelection a1 a2 a3 a4) with (Ok (c, alg)) by (symmetry; exact Sel) end. cbn [or_alert sbind bind]. rewrite F5. unfold earlyDataNegotiation. cbn [andb]. destruct (alpn_forward (cf_nextProtos cc) (cf_nextProtos (w_cfg w))) as (p & An & Ip). rewrite An. cbn [or_alert sbind].
  eexists _, _. split; [reflexivity|]. destruct (cipherSuiteMap suite) as [ps|] eqn:Em; [|exfalso; exact (Sus suite Is Is' Em)].
  destruct (Ces c alg Ic Se Fs) as (G1 & G2 & G3). rewrite (wl_same _ _ W) in Ig.
  exists suite, ps, g, pub, z, c, alg, p. split; [reflexivity|]. do 3 (split; [assumption|]). split; [split; [exact Sf|split; [exact Si|exact So]]|]. repeat (split; [assumption|]). assumption.
Qed.

(** ** The server's flight *)

Lemma says_body m b : says m b -> body_fits b = true -> body_marshal b = Ok (hm_body m).
Proof. intros [_ ->] F. now apply body_is. Qed.
Definition sh_exts_made (g : N) (pub : bytes) : list ext := map ext_made [(43, XVersionsServer [tls13Version]); (51, XKeyShareServer (mkKs g pub))].
Definition ee_exts_made (proto : bytes) : list ext := match proto with [] => [] | _ => map ext_made [(16, XAlpn [proto])] end.
Lemma sh_exts_fit g pub : share_fits (mkKs g pub) = true -> Forall (fun p => xb_fits (snd p) = true) [(43, XVersionsServer [tls13Version]); (51, XKeyShareServer (mkKs g pub))] /\
  exts_fit (sh_exts_made g pub) = true /\ len (exts_wire (sh_exts_made g pub)) <= 2000.
Proof.
  intros F. split; [constructor; [reflexivity|constructor; [exact F|constructor]]|].
  assert (len pub <= 1024) as L. { unfold share_fits in F. cbn [ks_group ks_data] in F. pose proof (share_size_max g). apply andb_true_iff in F. destruct F as [F _]. apply andb_true_iff in F. destruct F as [_ F]. apply N.eqb_eq in F. lia. }
  assert (len (exts_wire (sh_exts_made g pub)) <= 2000) as L2.
  { change (sh_exts_made g pub) with
      ([mkExt 43 (xb_wire (XVersionsServer [tls13Version]))] ++ [mkExt 51 (xb_wire (XKeyShareServer (mkKs g pub)))]). rewrite exts_len_app, !ext_len. cbn [xb_wire]. unfold share_wire. cbn [ks_group ks_data]. rewrite !len_app, !len_be, ?len_vector. change (list byte) with bytes in *. lia. }
  split; [|exact L2]. unfold sh_exts_made in *. apply exts_fit_small; [constructor; [reflexivity|constructor; [reflexivity|constructor]]|lia].
Qed.

Lemma ee_exts_fit proto : proto = [] \/ In proto (cf_nextProtos cc) -> (proto <> [] -> xb_fits (XAlpn [proto]) = true) /\ exts_fit (ee_exts_made proto) = true /\ len (exts_wire (ee_exts_made proto)) <= 1000.
Proof.
  intros H. destruct proto as [|b proto]; [split; [congruence|]; split; [reflexivity|change (len (exts_wire (ee_exts_made []))) with 0; lia]|].
  destruct H as [|H]; [discriminate|]. pose proof (md_protos _ (cp_modest _ _ _ _ _ _ cp)) as [M _]. rewrite Forall_forall in M. apply M in H.
  unfold ee_exts_made. generalize dependent (b :: proto). intros p H.
  assert (len (names_wire [p]) = 1 + len p) as L. { unfold names_wire. cbn [map concat]. rewrite app_nil_r, len_vector. lia. }
  assert (xb_fits (XAlpn [p]) = true) as F. { cbn [xb_fits forallb]. rewrite !sized_true; [reflexivity|rewrite L; lia|lia]. }
  assert (len (exts_wire (map ext_made [(16, XAlpn [p])])) <= 1000) as L2. { change (map ext_made [(16, XAlpn [p])]) with [mkExt 16 (xb_wire (XAlpn [p]))]. rewrite ext_len. cbn [xb_wire]. rewrite len_vector, L. lia. }
  split; [auto|]. split; [|exact L2]. apply (exts_fit_small [(16, XAlpn [p])]); [constructor; [reflexivity|constructor]|lia].
Qed.
Lemma len_entries chain : len (concat (map ce_wire (map (fun c => mkCe c []) chain))) = len (concat chain) + 5 * len chain.
Proof.
  induction chain as [|c l IH]; [reflexivity|]. cbn [map concat]. rewrite !len_app, IH. unfold ce_wire. cbn [ce_cert ce_exts]. rewrite len_app, !len_vector. change (len (exts_wire [])) with 0.
  unfold len in *. cbn [List.length]. lia.
Qed.
Lemma chain_fits c : sendable X c -> body_fits (chain_body (kp_chain c)) = true /\ len (body_wire (chain_body (kp_chain c))) <= 16363 /\ receivable (x_parses X) (chain_body (kp_chain c)).
Proof.
  intros [F L]. unfold chain_body. cbn [body_fits body_wire receivable]. unfold cert_fits, cert_wire. cbn [ct_context ct_list].
  pose proof (len_entries (kp_chain c)) as Le. split; [|split].
  - rewrite !andb_true_iff. split; [split; [reflexivity|]|apply sized_true; lia]. rewrite forallb_forall. intros e He. apply in_map_iff in He. destruct He as (x & <- & Hx). rewrite Forall_forall in F. destruct (F x Hx) as [_ L1].
    unfold ce_fits. cbn [ce_cert ce_exts]. rewrite sized_true; [reflexivity|]. split; [exact L1|]. apply in_split in Hx. destruct Hx as (a & b & Eq). rewrite Eq, concat_app in L. cbn [concat] in L. rewrite !len_app in L. change (list byte) with bytes in *. lia.
  - rewrite len_app, !len_vector, Le. change (len (@nil byte)) with 0. lia.
  - rewrite forallb_forall. intros e He. apply in_map_iff in He. destruct He as (x & <- & Hx). rewrite Forall_forall in F. now apply F.
Qed.

(** The flight: what a client will accept of it. *)
Definition flight (ps : suite) (hello : hmsg) (ms : list hmsg) : Prop := exists random g pub suite proto cert scheme sg leaf rest shm eem certm cvm finm,
  ms = [shm; eem; certm; cvm; finm] /\
  (says shm (BServerHello (mkSh tls12Version random [] suite 0 (sh_exts_made g pub))) /\ len random = 32 /\ random <> retry_random /\ In suite (cf_cipherSuites cc) /\
   cipherSuiteMap suite = Some ps /\ In g (cf_groups cc) /\ share_fits (mkKs g pub) = true /\ served g pub) /\
  (says eem (BEncryptedExtensions (ee_exts_made proto)) /\ (proto = [] \/ In proto (cf_nextProtos cc))) /\
  (says certm (chain_body (kp_chain cert)) /\ kp_chain cert = leaf :: rest /\ sendable X cert /\ believes Qc X ccfg cert) /\
  (says cvm (BCertificateVerify (mkCv scheme sg)) /\ body_fits (BCertificateVerify (mkCv scheme sg)) = true /\
   cv_verify P X (mkCv scheme sg) leaf (digest P (s_hash ps) (marshals [hello; shm; eem; certm])) = Ok tt) /\
  Forall (fun m => len (hm_body m) <= 16363) ms.

Lemma suite_fits suite : In suite (cf_cipherSuites cc) -> u16_fits suite = true.
Proof. intros H. pose proof (md_suites _ (cp_modest _ _ _ _ _ _ cp)) as [F _]. rewrite Forall_forall in F. now apply F. Qed.
Lemma negotiated_forward o w n random shares hello : Qs o -> server_like (w_cfg w) -> chosen random shares n hello ->
  exists w' k acts, server_negotiated P X o w n = (w', Ok (SWaitFlight2 k, acts, false)) /\ flight (sk_suite k) hello (sent_of acts) /\ p_usingClientAuth (sk_params k) = false /\
    w_hash w' = marshals (hello :: sent_of acts).
Proof.
  intros Qo (He & _ & _ & _ & _ & Ha) (suite & ps & g & pub & z & cert & scheme & proto & -> & Is & Em & Ig & [Sf Sv] & Ip & Si & Se & Be).
  destruct (cp_srandom _ _ _ _ _ _ cp o Qo) as (rnd & Ra & Rl & Rn). destruct (sh_exts_fit g pub Sf) as (F0 & F1 & L1). destruct (ee_exts_fit proto Ip) as (G0 & G1 & G2). destruct (chain_fits cert Se) as (C1 & C2 & _).
  inversion F0 as [|? ? V1 F0b]; subst. inversion F0b as [|? ? V2 _]; subst. cbn [snd] in V1, V2.
  unfold server_negotiated. cbn [n_params n_sessionId n_first n_hrr n_hello n_dhSecret n_pskSecret p_suite p_usingPSK p_usingEarlyData p_rejectedEarlyData n_earlyTrafficSecret]. rewrite Ra.
  assert (server_hello_exts (mkNeg (mkPar false true false false false false suite (cf_serverName ccfg) proto) g pub (Some z) [] [] 0 (Some cert) scheme [] None None hello) = Ok (sh_exts_made g pub)) as Hx.
  { unfold server_hello_exts. cbn [n_params p_usingDH p_usingPSK n_dhGroup n_dhPublic]. change (versions_server_marshal [tls13Version]) with (xb_marshal (XVersionsServer [tls13Version])).
    rewrite add_new by (auto). cbn [bind app]. change (ks_server_marshal (mkKs g pub)) with (xb_marshal (XKeyShareServer (mkKs g pub))). rewrite add_new by (auto). reflexivity. }
  rewrite Hx. cbn [or_alert sbind]. unfold ext_send at 1. rewrite He. cbn [sbind].
  assert (body_fits (BServerHello (mkSh tls12Version rnd [] suite 0 (sh_exts_made g pub))) = true) as Fs.
  { cbn [body_fits]. unfold sh_fits. cbn [sh_version sh_random sh_session sh_suite sh_comp sh_exts]. rewrite Rl, (suite_fits _ Is), F1. reflexivity. }
  destruct (new_forward w _ Fs) as (w1 & shm & N1 & S1 & K1). rewrite N1. cbn [sbind]. rewrite Em. cbn [omarshal List.app]. destruct (handshake_secrets _ _ _ _ _) as [[chs shs] master].
  assert (server_ee_exts (mkNeg (mkPar false true false false false false suite (cf_serverName ccfg) proto) g pub (Some z) [] [] 0 (Some cert) scheme [] None None hello) = Ok (ee_exts_made proto)) as Hee.
  { unfold server_ee_exts. cbn [n_params p_nextProto p_usingEarlyData]. destruct proto as [|b pr]; [reflexivity|]. change (alpn_marshal [b :: pr]) with (xb_marshal (XAlpn [b :: pr])). rewrite add_new by (auto; apply G0; discriminate). reflexivity. }
  rewrite Hee. cbn [or_alert sbind]. unfold ext_send. change (w_cfg (set_hash w1 _)) with (w_cfg w1). rewrite (proj1 (proj2 K1)), He. cbn [sbind].
  destruct (new_forward (set_hash w1 (hm_marshal hello ++ hm_marshal shm)) (BEncryptedExtensions (ee_exts_made proto)) G1) as (w2 & eem & N2 & S2 & K2). rewrite N2. cbn [sbind].
  unfold server_auth. cbn [n_params p_usingPSK p_usingClientAuth n_cert n_certScheme]. change (w_cfg (hash_write w2 _)) with (w_cfg w2). rewrite (proj1 (proj2 K2)). change (w_cfg (set_hash w1 _)) with (w_cfg w1). rewrite (proj1 (proj2 K1)), Ha. cbn [sbind].
  destruct (new_forward (hash_write w2 (hm_marshal eem)) _ C1) as (w3 & certm & N3 & S3 & K3). rewrite N3. cbn [sbind].
  destruct Si as (leaf & rest & s' & h' & Ck & Si'). assert (signs_with Qs X scheme cert) as Si by (exists leaf, rest, s', h'; auto).
  destruct (sign_forward Qs P X scheme cert leaf rest o (hash_sum P ps (hash_write w3 (hm_marshal certm))) Si Qo Ck) as (sg & Cs & Cv & Cf & Cl). rewrite Cs. cbn [or_alert sbind].
  destruct (new_forward (hash_write w3 (hm_marshal certm)) _ Cf) as (w4 & cvm & N4 & S4 & K4). rewrite N4. cbn [sbind].
  set (fin := computeFinishedData _ _ _ _). destruct (new_forward (hash_write w4 (hm_marshal cvm)) (BFinished (List.length fin) fin)) as (w5 & finm & N5 & S5 & K5). { cbn [body_fits]. now apply N.eqb_eq. }
  rewrite N5. cbn [sbind]. unfold done.
  assert (w_hash w3 ++ hm_marshal certm = marshals [hello; shm; eem; certm]) as Hh.
  { rewrite (proj1 K3). unfold hash_write. cbn [w_hash set_hash]. rewrite (proj1 K2). cbn [w_hash set_hash]. rewrite !marshals_cons, <- !app_assoc. unfold marshals. cbn [map concat]. now rewrite app_nil_r. }
  eexists _, (mkSk _ ps master chs _ _ _), _. split; [reflexivity|]. cbn [sk_suite sk_params p_usingClientAuth List.app sent_of]. split; [|split; [reflexivity|]].
  - exists rnd, g, pub, suite, proto, cert, scheme, sg, leaf, rest, shm, eem, certm, cvm, finm. split; [reflexivity|]. split; [auto 10|]. split; [auto|]. split; [auto|]. split.
    + split; [exact S4|]. split; [exact Cf|]. rewrite <- Hh. exact Cv.
    + repeat constructor; [rewrite (proj2 S1)|rewrite (proj2 S2)|rewrite (proj2 S3); exact C2|rewrite (proj2 S4); exact Cl|rewrite (proj2 S5)].
      * cbn [body_wire]. unfold sh_wire. cbn [sh_version sh_random sh_session sh_suite sh_comp sh_exts]. rewrite !len_app, !len_be, !len_vector, Rl. change (len (@nil byte)) with 0. change (list byte) with bytes in *. lia.
      * cbn [body_wire]. rewrite len_vector. lia.
      * cbn [body_wire]. unfold fin, computeFinishedData. unfold len. rewrite msized. destruct (s_hash ps); cbn [hsize]; lia.
  - unfold hash_write. cbn [w_hash set_hash]. rewrite (proj1 K5). unfold hash_write. cbn [w_hash set_hash]. rewrite (proj1 K4). unfold hash_write. cbn [w_hash set_hash]. rewrite Hh.
    rewrite !marshals_cons. unfold marshals. cbn [map concat]. now rewrite !app_nil_r, <- !app_assoc.
Qed.

(** ** The client's steps *)

Section Client.
Variables (ps : suite) (hello shm eem certm cvm finm : hmsg).
Notation ms := [shm; eem; certm; cvm; finm].
Hypothesis fl : flight ps hello ms.

Definition keyed (w : world) (k : ckeys) (l : list hmsg) : Prop := ck_suite k = ps /\ p_usingPSK (ck_params k) = false /\ p_usingClientAuth (ck_params k) = false /\
  p_clientSendingEarlyData (ck_params k) = false /\ w_hash w = marshals (hello :: l).
Definition tracks (s : hstate) (w : world) (got : nat) : Prop := w_cfg w = cc /\
  match s with
  | CWaitSH ws => got = 0%nat /\ ws_hello ws = hello /\ has_keys (ws_dh ws) /\ omarshal (ws_first ws) ++ omarshal (ws_hrr ws) = [] /\ ws_params ws = set_sending no_params (cf_serverName ccfg) false
  | CWaitEE k => got = 1%nat /\ keyed w k [shm]
  | CWaitCertCR k => got = 2%nat /\ keyed w k [shm; eem] /\ p_usingEarlyData (ck_params k) = false
  | CWaitCV k cert cr => got = 3%nat /\ keyed w k [shm; eem; certm] /\ p_usingEarlyData (ck_params k) = false /\ toBody (x_parses X) (hm_type certm) (hm_body certm) = Ok (BCertificate cert)
  | CWaitFinished k _ _ _ _ => got = 4%nat /\ keyed w k [shm; eem; certm; cvm] /\ p_usingEarlyData (ck_params k) = false
  | _ => False
  end.
Definition goes (r : world * res outcome) (got : nat) (acts : hstate -> list action) : Prop :=
  match r with
  | (w', Ok (s', a, retry)) => retry = false /\ tracks s' w' got /\ a = acts s'
  | _ => False
  end.

Lemma tracks_kept s w w' n : kept w w' -> tracks s w n -> tracks s w' n.
Proof. unfold tracks, keyed. intros (-> & -> & _ & _). auto. Qed.

Definition sh_acts (s : hstate) : list action :=
  match s with CWaitEE k => [RekeyIn EpochHandshakeData (makeTrafficKeys P ps (ck_shs k)); RekeyOut EpochHandshakeData (makeTrafficKeys P ps (ck_chs k))] | _ => [] end.
Lemma server_hello_goes o w ws sh n : tracks (CWaitSH ws) w 0 -> sh_unmarshal (hm_body shm) = Ok (sh, n) -> goes (client_server_hello P o w ws shm sh) 1 sh_acts.
Proof.
  intros (Hc & _ & Eh & Hk & Em & Ep) U. destruct fl as (random & g & pub & suite & proto & cert & scheme & sg & leaf & rest & m1 & m2 & m3 & m4 & m5 & Eq & (S1 & R1 & R2 & Is & Cm & Ig & Sf & Sv) & _). injection Eq as <- <- <- <- <-.
  destruct (sh_exts_fit g pub Sf) as (F0 & F1 & _). inversion F0 as [|? ? V1 F0b]; subst. inversion F0b as [|? ? V2 _]; subst. cbn [snd] in V1, V2.
  assert (body_fits (BServerHello (mkSh tls12Version random [] suite 0 (sh_exts_made g pub))) = true) as Fs.
  { cbn [body_fits]. unfold sh_fits. cbn [sh_version sh_random sh_session sh_suite sh_comp sh_exts]. rewrite R1, (suite_fits _ Is), F1. reflexivity. }
  apply (says_body _ _ S1) in Fs. cbn [body_marshal] in Fs. apply sh_back in Fs. rewrite Fs in U. apply Ok_inj in U. injection U as <- _.
  unfold client_server_hello. cbn [sh_exts sh_suite]. unfold ext_recv. rewrite Hc. change (cf_extensionHandler cc) with (cf_extensionHandler ccfg). rewrite chandler. cbn [sbind].
  assert (el_parse (sh_exts_made g pub) sh_dsts (None, None) = Ok ([etKeyShare], (None, Some (mkKs g pub)))) as Pa.
  { unfold el_parse, sh_dsts. cbn [el_parse_all]. apply xb_made in V2. cbn [xb_marshal] in V2. pose proof (safe_ok _ _ _ (ks_server_back _ _ V2)) as B2.
    first [rewrite (parse_miss (sh_exts_made g pub) etPreSharedKey) by reflexivity; cbn [bind]; erewrite (parse_hit (sh_exts_made g pub) etKeyShare); [|reflexivity|reflexivity|cbn [ext_made e_data snd]; rewrite B2; reflexivity]; cbn [bind]; reflexivity
      |erewrite (parse_hit (sh_exts_made g pub) etKeyShare); [|reflexivity|reflexivity|cbn [ext_made e_data snd]; rewrite B2; reflexivity]; cbn [bind]; rewrite (parse_miss (sh_exts_made g pub) etPreSharedKey) by reflexivity; cbn [bind]; reflexivity]. }
  rewrite Pa. cbn [or_alert sbind ks_group ks_data]. rewrite Ep. cbn [p_usingPSK set_sending no_params].
  destruct (dh_lookup g (ws_dh ws)) as [priv|] eqn:El; [|exfalso; exact (proj1 Hk g Ig El)].
  assert (forall z, goes (let w0 := set_hash w (omarshal (ws_first ws) ++ omarshal (ws_hrr ws) ++ hm_marshal (ws_hello ws) ++ hm_marshal shm) in
     let '(chs, shs, master) := handshake_secrets P ps (hkdfExtract P (s_hash ps) (Some (repeat x00 (hsize (s_hash ps)))) (repeat x00 (hsize (s_hash ps)))) (match z with Some z => z | None => repeat x00 (hsize (s_hash ps)) end) (hash_sum P ps w0) in
     done w0 (CWaitEE (mkCk (set_sh_params (set_sending no_params (cf_serverName ccfg) false) false true suite) ps master chs shs))
       (RekeyIn EpochHandshakeData (makeTrafficKeys P ps shs) :: [RekeyOut EpochHandshakeData (makeTrafficKeys P ps chs)])) 1 sh_acts) as G.
  { intros z. cbv zeta. destruct (handshake_secrets _ _ _ _ _) as [[chs shs] master]. unfold done, goes. split; [reflexivity|]. split; [|reflexivity].
    split; [exact Hc|]. split; [reflexivity|]. repeat (split; [reflexivity|]). cbn [w_hash set_hash]. rewrite app_assoc, Em, Eh. cbn [List.app]. rewrite marshals_cons, marshals_one. reflexivity. }
  destruct (keyAgreement P g pub priv) as [z|e| |] eqn:Ka; cbn [sbind]; [rewrite Cm; exact (G (Some z))|rewrite Cm; exact (G None)| |]; exfalso.
  - destruct Sv as [Is' (privb & Ob)]. apply dh_in in El. destruct (proj2 Hk _ _ El) as (puba & Oa). destruct (proj2 (cp_shares _ _ _ _ _ _ cp g Ig Is') _ _ _ _ Oa Ob) as (z & Ez).
    destruct (CrashProofs2.agreement_panic _ _ _ _ Ka) as [Ic _]. apply (fun Nf => curves g puba priv pub privb z Nf Oa Ob) in Ez; [congruence|].
    cbn in Ic. intros If. repeat (destruct Ic as [<-|Ic]; [cbn in If; intuition discriminate|]). contradiction.
  - exact (agreement_back _ _ _ _ Ka).
Qed.
Lemma wait_sh_goes o w ws : tracks (CWaitSH ws) w 0 -> goes (client_wait_sh P o w ws shm) 1 sh_acts.
Proof.
  intros T. pose proof T as (Hc & _ & _ & _ & _ & _). pose proof fl as (random & g & pub & suite & proto & cert & scheme & sg & leaf & rest & m1 & m2 & m3 & m4 & m5 & Eq & (S1 & R1 & R2 & Is & Cm & Ig & Sf & Sv) & _). injection Eq as <- <- <- <- <-.
  destruct (sh_exts_fit g pub Sf) as (F0 & F1 & _). inversion F0 as [|? ? V1 _]; subst. cbn [snd] in V1. pose proof (says_body _ _ S1) as Fs.
  assert (body_fits (BServerHello (mkSh tls12Version random [] suite 0 (sh_exts_made g pub))) = true) as Fb.
  { cbn [body_fits]. unfold sh_fits. cbn [sh_version sh_random sh_session sh_suite sh_comp sh_exts]. rewrite R1, (suite_fits _ Is), F1. reflexivity. }
  apply Fs in Fb. cbn [body_marshal] in Fb. apply sh_back in Fb. unfold client_wait_sh. rewrite (proj1 S1). cbn [body_type]. change (Byte.eqb htServerHello htServerHello) with true. cbn [negb]. rewrite Fb. cbn [or_alert sbind sh_version sh_exts].
  change (tls12Version =? tls12Version) with true. cbn [negb]. apply xb_made in V1. cbn [xb_marshal] in V1. pose proof (safe_ok _ _ _ (versions_server_back _ _ _ V1)) as B1.
  rewrite (find_hit (sh_exts_made g pub) etSupportedVersions versions_server_unmarshal (ext_made (43, XVersionsServer [tls13Version]))) by reflexivity. cbn [ext_made e_data snd]. rewrite B1. cbn [or_alert sbind].
  change (tls13Version =? tls13Version) with true. cbn [negb sh_suite sh_random]. rewrite Hc.
  assert (existsb (N.eqb suite) (cf_cipherSuites cc) = true) as Ei. { apply existsb_exists. exists suite. split; [exact Is|apply N.eqb_refl]. }
  rewrite Ei. cbn [negb]. destruct (beqb random hrrRandomSentinel) eqn:Eb; [exfalso; apply R2; apply beqb_eq in Eb; exact Eb|].
  eapply server_hello_goes; [exact T|exact Fb].
Qed.

Lemma wait_ee_goes o w k : tracks (CWaitEE k) w 1 -> goes (client_wait_ee P o w k eem) 2 (fun _ => []).
Proof.
  intros (Hc & _ & K1 & K2 & K3 & K4 & K5). destruct fl as (random & g & pub & suite & proto & cert & scheme & sg & leaf & rest & m1 & m2 & m3 & m4 & m5 & Eq & _ & (S2 & Ip) & _). injection Eq as <- <- <- <- <-.
  destruct (ee_exts_fit proto Ip) as (G0 & G1 & _). pose proof (says_body _ _ S2 G1) as B. cbn [body_marshal] in B. apply ee_back, safe_ok in B.
  unfold client_wait_ee. rewrite (proj1 S2). cbn [body_type]. change (Byte.eqb htEncryptedExtensions htEncryptedExtensions) with true. cbn [negb]. rewrite B. cbn [or_alert sbind]. unfold ext_recv. rewrite Hc. change (cf_extensionHandler cc) with (cf_extensionHandler ccfg). rewrite chandler. cbn [sbind].
  assert (exists protos found, el_parse (ee_exts_made proto) ee_dsts [] = Ok (found, protos) /\ existsb (N.eqb etEarlyData) found = false) as (protos & found & -> & Fe).
  { unfold el_parse, ee_dsts. cbn [el_parse_all]. destruct proto as [|b pr].
    - eexists _, _. split; reflexivity.
    - specialize (G0 ltac:(discriminate)). apply xb_made in G0. cbn [xb_marshal] in G0. apply alpn_back, safe_ok in G0. unfold ee_exts_made. clear Ip S2 G1 B. revert G0. generalize (b :: pr). intros p0 G0.
      erewrite (parse_hit (map ext_made [(16, XAlpn [p0])]) etALPN); [|reflexivity|reflexivity|cbn [ext_made e_data snd]; rewrite G0; reflexivity]. cbn [bind]. rewrite (parse_miss _ etEarlyData) by reflexivity. cbn [bind]. eexists _, _. split; reflexivity. }
  cbn [or_alert sbind]. rewrite Fe. cbn [set_ck_params ck_params set_ee_params p_clientSendingEarlyData p_usingPSK]. rewrite K4, K2. cbn [andb]. unfold done, goes. split; [reflexivity|]. split; [|reflexivity].
  split; [exact Hc|]. split; [reflexivity|]. split; [|reflexivity]. unfold keyed. cbn [set_ck_params ck_suite ck_params set_ee_params p_usingPSK p_usingClientAuth p_clientSendingEarlyData]. repeat (split; [assumption|]).
  unfold hash_write. cbn [w_hash set_hash]. rewrite K5. rewrite !marshals_cons. unfold marshals. cbn [map concat]. now rewrite !app_nil_r, <- !app_assoc.
Qed.

Lemma cert_read : exists cert leaf rest, toBody (x_parses X) (hm_type certm) (hm_body certm) = Ok (chain_body (kp_chain cert)) /\ kp_chain cert = leaf :: rest.
Proof.
  destruct fl as (random & g & pub & suite & proto & cert & scheme & sg & leaf & rest & m1 & m2 & m3 & m4 & m5 & Eq & _ & _ & (S3 & Ck & Se & Be) & _). injection Eq as <- <- <- <- <-.
  destruct (chain_fits cert Se) as (C1 & _ & C3). exists cert, leaf, rest. split; [|exact Ck]. rewrite (proj1 S3). apply body_back; [exact C3|]. now apply says_body.
Qed.
Lemma wait_cert_goes w k : tracks (CWaitCertCR k) w 2 -> goes (client_wait_cert_cr X w k certm) 3 (fun _ => []).
Proof.
  intros (Hc & _ & (K1 & K2 & K3 & K4 & K5) & K6). destruct cert_read as (cert & leaf & rest & Tb & Ck). unfold client_wait_cert_cr. rewrite Tb. cbn [or_alert sbind]. unfold chain_body at 1, done, goes.
  split; [reflexivity|]. split; [|reflexivity]. split; [exact Hc|]. split; [reflexivity|]. split; [|split; [exact K6|exact Tb]]. unfold keyed. repeat (split; [assumption|]).
  unfold hash_write. cbn [w_hash set_hash]. rewrite K5. rewrite !marshals_cons. unfold marshals. cbn [map concat]. now rewrite !app_nil_r, <- !app_assoc.
Qed.
Lemma wait_cv_goes o w k cert cr : Qc o -> tracks (CWaitCV k cert cr) w 3 -> goes (client_wait_cv P X o w k cert cr cvm) 4 (fun _ => []).
Proof.
  intros Qo (Hc & _ & (K1 & K2 & K3 & K4 & K5) & K6 & Tb). destruct fl as (random & g & pub & suite & proto & kp & scheme & sg & leaf & rest & m1 & m2 & m3 & m4 & m5 & Eq & _ & _ & (S3 & Ck & Se & Be) & (S4 & Cf & Cv) & _). injection Eq as <- <- <- <- <-.
  destruct (chain_fits kp Se) as (C1 & _ & C3). rewrite (proj1 S3) in Tb. rewrite (body_back _ (chain_body (kp_chain kp)) _ C3 (says_body _ _ S3 C1)) in Tb. apply Ok_inj in Tb. injection Tb as <-.
  unfold client_wait_cv. rewrite (proj1 S4). cbn [body_type]. change (Byte.eqb htCertificateVerify htCertificateVerify) with true. cbn [negb]. pose proof (says_body _ _ S4 Cf) as B. cbn [body_marshal] in B. apply cv_back, safe_ok in B. rewrite B. cbn [or_alert sbind ct_list].
  rewrite map_map. cbn [ce_cert]. rewrite map_id, Ck. unfold hash_sum. rewrite K1, K5, Cv. cbn [or_alert sbind]. rewrite Hc.
  destruct (Be o leaf rest Qo Ck) as (chains & Ch & Vp).
  change (cf_insecureSkipVerify cc) with (cf_insecureSkipVerify ccfg). change (cf_rootCAs cc) with (cf_rootCAs ccfg). change (cf_serverName cc) with (cf_serverName ccfg). change (cfg_time o cc) with (cfg_time o ccfg).
  assert ((if cf_insecureSkipVerify ccfg then Ok [] else match x_chain X (cf_rootCAs ccfg) (cf_serverName ccfg) (cfg_time o ccfg) leaf rest with Some chains => Ok chains | None => alert AlertBadCertificate end) = Ok chains) as ->.
  { destruct (cf_insecureSkipVerify ccfg); [now subst chains|now rewrite Ch]. }
  cbn [sbind]. assert (peer_ok o cc (leaf :: rest) chains = true) as ->. { unfold peer_ok. change (cf_verifyPeerCertificate cc) with (cf_verifyPeerCertificate ccfg). destruct (cf_verifyPeerCertificate ccfg); [exact Vp|reflexivity]. }
  cbn [negb]. unfold done, goes. split; [reflexivity|]. split; [|reflexivity]. split; [exact Hc|]. split; [reflexivity|]. split; [|exact K6]. unfold keyed. repeat (split; [assumption|]).
  unfold hash_write. cbn [w_hash set_hash]. rewrite K5. rewrite !marshals_cons. unfold marshals. cbn [map concat]. now rewrite !app_nil_r, <- !app_assoc.
Qed.
Lemma finish_goes o w k certs cr peer chains m : tracks (CWaitFinished k certs cr peer chains) w 4 -> hm_type m = htFinished -> hm_body m = computeFinishedData P ps (ck_shs k) (digest P (s_hash ps) (w_hash w)) ->
  exists w' c cfin acts, client_wait_finished P X o w k certs cr peer chains m = (w', Ok (Connected c, acts, false)) /\ says cfin (BFinished (List.length (hm_body cfin)) (hm_body cfin)) /\ len (hm_body cfin) <= 16363 /\
    acts = [QueueHandshakeMessage cfin; SendQueuedHandshake; RekeyIn EpochApplicationData (makeTrafficKeys P ps (sc_sts c)); RekeyOut EpochApplicationData (makeTrafficKeys P ps (sc_cts c))] /\
    hm_body cfin = computeFinishedData P ps (ck_chs k) (digest P (s_hash ps) (w_hash w ++ hm_marshal m)).
Proof.
  intros (Hc & _ & (K1 & K2 & K3 & K4 & K5) & K6) T B. unfold client_wait_finished. rewrite T. change (Byte.eqb htFinished htFinished) with true. cbn [negb]. rewrite K1. unfold hash_sum at 1. set (fd := computeFinishedData P ps (ck_shs k) _) in *.
  rewrite B. rewrite (safe_ok _ _ _ (proj2 (proj2 (fin_back (List.length fd) fd fd ltac:(unfold fin_marshal; now rewrite Nat.eqb_refl))))). cbn [or_alert sbind]. rewrite (proj2 (beqb_eq fd fd) eq_refl). cbn [negb].
  unfold client_eoed. rewrite K6. cbn [sbind]. unfold client_auth. rewrite K3. cbn [negb sbind List.app].
  set (w1 := hash_write w (hm_marshal m)). set (cd := computeFinishedData P ps (ck_chs k) (hash_sum P ps w1)).
  destruct (new_forward w1 (BFinished (List.length cd) cd)) as (w2 & finm' & N & S & Kw). { cbn [body_fits]. now apply N.eqb_eq. }
  rewrite N. cbn [sbind]. unfold done. eexists _, _, finm', _. split; [reflexivity|]. rewrite (proj2 S). cbn [body_wire]. split; [split; [exact (proj1 S)|exact (proj2 S)]|].
  split; [|split; [reflexivity|reflexivity]]. unfold cd, computeFinishedData. unfold len. rewrite msized. destruct (s_hash ps); cbn [hsize]; lia.
Qed.
End Client.
End Steps.
