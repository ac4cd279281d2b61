(** The extensions of the hellos that the code makes. *)
From Verif Require Import Base Syntax Frame Record Handshake Crypto Messages MessageProofs MessageProofs3 Pki Negotiation NegotiationSpec Machine MachineProofs Client Server StepProofs Conn RunSpec RunProofs SessionSpec.

(** ** Values of extensions *)

Lemma value_of_type {A} l t (un : bytes -> res (A * nat)) : ext_value l t un = match of_type t l with [] => None | e :: _ => match un (e_data e) with Ok (x, n) => Some x | _ => None end end.
Proof. unfold ext_value, of_type. induction l as [|e l IH]; [reflexivity|]. cbn [find filter]. destruct (_ =? _); [reflexivity|exact IH]. Qed.
Lemma value_others {A} l t r l' t' (un : bytes -> res (A * nat)) : el_add l t r = Ok l' -> t' <> t -> ext_value l' t' un = ext_value l t' un.
Proof. intros H N. rewrite !value_of_type. now rewrite (add_others _ _ _ _ _ H N). Qed.
Lemma value_added {A} l t d l' (un : bytes -> res (A * nat)) x n : el_add l t (Ok d) = Ok l' -> un d = Ok (x, n) -> ext_value l' t un = Some x.
Proof.
  intros H U. rewrite value_of_type. apply add_split in H. destruct H as (d' & Hd & H). apply Ok_inj in Hd. subst d'. unfold of_type.
  destruct H as [[H ->]|(a & e & b & -> & -> & E & H)]; unfold of_type in H; rewrite filter_app, H; cbn [app filter e_type]; rewrite N.eqb_refl; cbn [e_data]; now rewrite U.
Qed.
Lemma value_back {A} l t r l' (un : bytes -> res (A * nat)) x : el_add l t r = Ok l' -> (forall b, r = Ok b -> un b = Ok (x, List.length b)) -> ext_value l' t un = Some x.
Proof. intros H U. pose proof (add_split _ _ _ _ H) as (d & Hd & _). subst r. eapply value_added; [exact H|]. now apply U. Qed.
Lemma value_found {A} l t (un : bytes -> res (A * nat)) x : el_find l t un = Some (Ok x) -> ext_value l t un = Some x.
Proof.
  rewrite find_of_type, value_of_type. destruct (of_type t l) as [|e k]; [discriminate|]. intros [= H]. unfold safeUnmarshal in H.
  inv_bind H as [v n] K. rewrite K. match type of H with (if ?b then _ else _) = _ => destruct b; [discriminate|] end. apply Ok_inj in H. congruence.
Qed.
Lemma value_nil {A} t (un : bytes -> res (A * nat)) : ext_value [] t un = None.
Proof. reflexivity. Qed.

(** Rewrites the value of an extension in a list to that before another was added. *)
Ltac others := repeat match goal with H : el_add ?l ?t _ = Ok ?l' |- context [ext_value ?l' ?t' _] => rewrite (value_others _ _ _ _ t' _ H ltac:(discriminate)) end.

(** ** The ClientHello *)

Lemma shares_groups P rnd groups : forall n shares own, client_shares P rnd n groups = Ok (shares, own) -> map ks_group shares = groups.
Proof.
  induction groups as [|g groups IH]; intros n shares own H; cbn [client_shares] in H.
  - injection H as <- <-. reflexivity.
  - inv_bind H as [pub priv] H1. inv_bind H as [l dh] H2. injection H as <- <-. cbn [map ks_group]. f_equal. eauto.
Qed.
Lemma client_extensions_values cfg st shares l : client_extensions cfg st shares = Ok l ->
  ext_value l 51 ks_client_unmarshal = Some shares /\ ext_value l 44 cookie_unmarshal = st_cookie st /\ of_type 41 l = [] /\ of_type 42 l = [].
Proof.
  unfold client_extensions. intros H. inv_bind H as l1 H1. inv_bind H as l2 H2. inv_bind H as l3 H3. inv_bind H as l4 H4. inv_bind H as l5 H5.
  inv_bind H as l6 H6. inv_bind H as l7 H7.
  assert (forall t, t <> 16 -> of_type t l6 = of_type t l5) as A6. { intros t Nt. destruct (st_nextProtos st); [apply Ok_inj in H6; now subst|]. now apply (add_others _ _ _ _ t H6). }
  assert (forall t, t <> 44 -> of_type t l7 = of_type t l6) as A7. { intros t Nt. destruct (st_cookie st); [now apply (add_others _ _ _ _ t H7)|]. apply Ok_inj in H7. now subst. }
  assert (forall t, t <> 45 -> of_type t l = of_type t l7) as A8. { intros t Nt. destruct (cf_pskModes cfg); [apply Ok_inj in H; now subst|]. now apply (add_others _ _ _ _ t H). }
  assert (forall t, t <> 45 -> t <> 44 -> t <> 16 -> t <> 13 -> t <> 10 -> of_type t l = of_type t l3) as A.
  { intros t ? ? ? ? ?. rewrite A8, A7, A6 by assumption. rewrite (add_others _ _ _ _ t H5), (add_others _ _ _ _ t H4) by assumption. reflexivity. }
  split; [|split; [|split]].
  - rewrite value_of_type, A by discriminate. rewrite <- value_of_type. eapply value_back; [exact H3|]. apply ks_client_back.
  - rewrite value_of_type, A8 by discriminate. rewrite <- value_of_type. destruct (st_cookie st) as [c|].
    + eapply value_back; [exact H7|]. apply cookie_back.
    + apply Ok_inj in H7. subst l7. rewrite value_of_type, A6 by discriminate. rewrite <- value_of_type. others. reflexivity.
  - rewrite A by discriminate. rewrite (add_others _ _ _ _ 41 H3), (add_others _ _ _ _ 41 H2), (add_others _ _ _ _ 41 H1) by discriminate. reflexivity.
  - rewrite A by discriminate. rewrite (add_others _ _ _ _ 42 H3), (add_others _ _ _ _ 42 H2), (add_others _ _ _ _ 42 H1) by discriminate. reflexivity.
Qed.

Lemma ignoring_cases l t r l' : add_ignoring l t r = Ok l' -> el_add l t r = Ok l' \/ l' = l.
Proof. unfold add_ignoring. destruct (el_add l t r); intros [= ->]; auto. Qed.
Lemma truncated_psk c b : ch_truncated c = Ok b -> of_type 41 (ch_exts c) <> [].
Proof.
  unfold ch_truncated. destruct (rev (ch_exts c)) as [|e r] eqn:R; [discriminate|]. destruct (N.eqb_spec (e_type e) etPreSharedKey) as [T|]; [|discriminate]. intros _.
  assert (ch_exts c = rev r ++ [e]) as ->. { rewrite <- (rev_involutive (ch_exts c)), R. reflexivity. }
  unfold of_type. rewrite filter_app. cbn [filter]. rewrite T. change (etPreSharedKey =? 41) with true. now destruct (filter _ (rev r)).
Qed.
Lemma hash_eq a b : hash_eqb a b = true -> a = b.
Proof. destruct a, b; cbn; congruence. Qed.
Lemma client_psk_values P o cfg st ch key ps ch' es early : client_psk P o cfg st ch key ps = Ok (ch', es, early) -> of_type 41 (ch_exts ch) = [] ->
  ch_version ch' = ch_version ch /\ (forall t, t <> 41 -> t <> 42 -> of_type t (ch_exts ch') = of_type t (ch_exts ch)) /\
  (exists age binder, ext_value (ch_exts ch') 41 psk_client_unmarshal = Some ([mkPid (psk_identity key) age], [binder])) /\
  forall id s, In id (ch_suites ch') -> cipherSuiteMap id = Some s -> s_hash s = s_hash ps.
Proof.
  unfold client_psk. cbv zeta. intros H N. inv_bind H as c1 H1. destruct (cf_pskModes cfg); [discriminate|].
  inv_bind H as l1 H2. inv_bind H as t H3. inv_bind H as l2 H4. apply Ok_inj in H. injection H as <- _ _.
  set (early0 := cf_allowEarlyData cfg && _) in H1.
  assert (ch_version c1 = ch_version ch /\ ch_suites c1 = compatible_suites (s_hash ps) (ch_suites ch) /\ forall t, t <> 42 -> of_type t (ch_exts c1) = of_type t (ch_exts ch)) as (V & S & X).
  { destruct early0; [|apply Ok_inj in H1; subst c1; cbn; auto]. inv_bind H1 as l0 H0. apply Ok_inj in H1. subst c1. cbn [set_exts ch_version ch_suites ch_exts] in *.
    split; [reflexivity|]. split; [reflexivity|]. intros t0 Nt. exact (add_others _ _ _ _ t0 H0 Nt). }
  apply truncated_psk in H3. cbn [set_exts ch_exts] in H3, H4.
  assert (el_add (ch_exts c1) etPreSharedKey (psk_client_marshal [mkPid (psk_identity key) ((sinceMs (o_now o) (psk_receivedAt key) + psk_ageAdd key) mod 2 ^ 32)] [repeat x00 (hsize (s_hash ps))]) = Ok l1) as A1.
  { destruct (ignoring_cases _ _ _ _ H2) as [A| ->]; [exact A|]. rewrite X, N in H3 by discriminate. now destruct H3. }
  cbn [set_exts ch_version ch_suites ch_exts]. split; [exact V|]. split; [|split].
  - intros t0 N1 N2. rewrite <- X by exact N2. rewrite <- (add_others _ _ _ _ t0 A1 N1). apply ignoring_cases in H4. destruct H4 as [A| ->]; [|reflexivity].
    exact (add_others _ _ _ _ t0 A N1).
  - apply ignoring_cases in H4. destruct H4 as [A| ->]; (eexists; eexists; eapply value_back; [first [exact A|exact A1]|]; intros b Hb; refine (psk_client_back _ _ _ _ Hb); reflexivity).
  - rewrite S. intros id s I Cm. unfold compatible_suites in I. apply filter_In in I. destruct I as [_ I]. rewrite Cm in I. now apply hash_eq.
Qed.

Lemma wire_version w cfg : w_kind w = (cf_useDTLS cfg, cf_useDTLS cfg) -> wireVersion (x_in (w_ctx w)) = hello_version cfg.
Proof. unfold w_kind, wireVersion, hello_version. intros [= -> _]. now destruct (cf_useDTLS cfg). Qed.

Lemma client_offers P o cfg psks w st w' ws acts retry : client_start P o w st = (w', Ok (CWaitSH ws, acts, retry)) ->
  (exists l, w_cfg w = set_suites (cfg_init cfg) l) -> w_psks w = start_cache cfg psks -> w_kind w = (cf_useDTLS cfg, cf_useDTLS cfg) -> st_serverName st = cf_serverName cfg ->
  exists shares, client_shares P (o_keys o) 0 (cf_groups (w_cfg w)) = Ok (shares, ws_dh ws) /\ offers cfg psks (st_cookie st) shares (ws_hello ws).
Proof.
  intros C [l L] Hp Hk Hn. apply client_start_hello in C. destruct C as (shares & exts0 & exts & random & ch & Cs & Ce & Es & M & C). cbv zeta in C.
  exists shares. split; [exact Cs|]. destruct M as (Mb & Mt & _). split; [exact Mt|]. split; [apply shares_groups in Cs; rewrite Cs, L; reflexivity|].
  exists ch. split; [exact Mb|]. rewrite Hp, Hn in C. rewrite (wire_version _ _ Hk) in C.
  assert (forall key, cache_get (start_cache cfg psks) (cf_serverName cfg) = Some key -> ch_version ch = hello_version cfg) as V.
  { intros key G. rewrite G in C. destruct C as (ps & es & early & _ & C). unfold client_psk in C. cbv zeta in C. inv_bind C as c1 H1. destruct (cf_pskModes (w_cfg w)); [discriminate|].
    inv_bind C as l1 H2. inv_bind C as t H3. inv_bind C as l2 H4. apply Ok_inj in C. injection C as <- _ _. cbn [set_exts ch_version].
    match type of H1 with (if ?b then _ else _) = _ => destruct b end; [inv_bind H1 as l9 H0|]; apply Ok_inj in H1; subst c1; reflexivity. }
  split.
  - destruct (cache_get (start_cache cfg psks) (cf_serverName cfg)) as [key|] eqn:G; [eauto|]. subst ch. reflexivity.
  - intros Nh. unfold ext_send in Es. rewrite L in Es. cbn [cf_extensionHandler set_suites] in Es. change (cf_extensionHandler (cfg_init cfg)) with (cf_extensionHandler cfg) in Es.
    rewrite Nh in Es. apply Ok_inj in Es. subst exts0. apply client_extensions_values in Ce. destruct Ce as (V51 & V44 & N41 & N42). unfold offered_exts.
    destruct (cache_get (start_cache cfg psks) (cf_serverName cfg)) as [key|] eqn:G.
    + destruct C as (ps & es & early & Cm & C). apply client_psk_values in C; [|exact N41]. destruct C as (_ & X & V41 & S). cbn [ch_exts] in X.
      split; [rewrite value_of_type, X by discriminate; now rewrite <- value_of_type|]. split; [rewrite value_of_type, X by discriminate; now rewrite <- value_of_type|].
      split; [exact V41|]. intros id s s' I C1 C2. assert (s' = ps) as -> by congruence. eauto.
    + subst ch. cbn [ch_exts]. split; [exact V51|]. split; [exact V44|]. rewrite value_of_type, N41. reflexivity.
Qed.

(** ** The ServerHello and EncryptedExtensions *)

Definition n_selected (n : snegotiated) : option N := if p_usingPSK (n_params n) then Some (N.of_nat (n_selectedPSK n) mod 2 ^ 16) else None.
Definition n_share (n : snegotiated) : option kshare := if p_usingDH (n_params n) then Some (mkKs (n_dhGroup n) (n_dhPublic n)) else None.
Lemma server_hello_values n l : server_hello_exts n = Ok l -> ext_value l 41 psk_server_unmarshal = n_selected n /\ ext_value l 51 ks_server_unmarshal = n_share n.
Proof.
  unfold server_hello_exts, n_selected, n_share. intros H. inv_bind H as l1 H1. inv_bind H as l2 H2.
  assert (ext_value l2 51 ks_server_unmarshal = (if p_usingDH (n_params n) then Some (mkKs (n_dhGroup n) (n_dhPublic n)) else None) /\ ext_value l2 41 psk_server_unmarshal = None) as [A B].
  { destruct (p_usingDH (n_params n)).
    - split; [eapply value_back; [exact H2|]; apply ks_server_back|]. others. reflexivity.
    - apply Ok_inj in H2. subst l2. others. auto. }
  destruct (p_usingPSK (n_params n)).
  - split; [eapply value_back; [exact H|]; intros b Hb; apply u16_back; exact Hb|]. rewrite <- A. others. reflexivity.
  - apply Ok_inj in H. subst l2. auto.
Qed.
Lemma server_ee_values n l : server_ee_exts n = Ok l -> accepts l (p_usingEarlyData (n_params n)) (p_nextProto (n_params n)).
Proof.
  unfold server_ee_exts, accepts, value_or. intros H. inv_bind H as l1 H1.
  assert (p_nextProto (n_params n) = hd [] match ext_value l1 16 alpn_unmarshal with Some v => v | None => [] end /\ ext_value l1 42 early_unmarshal = None) as [A B].
  { destruct (p_nextProto (n_params n)) as [|b t]; [apply Ok_inj in H1; subst l1; auto|].
    split; [|others; reflexivity]. assert (ext_value l1 16 alpn_unmarshal = Some [b :: t]) as -> by (eapply value_back; [exact H1|]; apply alpn_back). reflexivity. }
  destruct (p_usingEarlyData (n_params n)).
  - split; [|rewrite A at 1; others; reflexivity]. assert (ext_value l 42 early_unmarshal = Some tt) as -> by (eapply value_added; [exact H|reflexivity]). reflexivity.
  - apply Ok_inj in H. subst l1. rewrite B. auto.
Qed.
