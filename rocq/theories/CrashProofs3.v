(** C45: where a panic can come from in the steps of the two state machines, over a stream. *)
From Verif Require Import Base Syntax SyntaxProofs3 Frame Record RecordSpec Timer Handshake Crypto CryptoSpec CryptoProofs Messages MessageSpec Pki Negotiation NegotiationProofs Machine Cookie Client Server
  MachineProofs StillProofs CalmProofs HelloProofs PropDecode Conn CrashSpec CrashProofs CrashProofs2.

(** ** States and actions that lead to no panic of their own *)

Definition known (s : suite) : Prop := exists id, cipherSuiteMap id = Some s.
Definition known_id (id : N) : Prop := cipherSuiteMap id <> None.
Definition ck_ok (k : ckeys) (cr : option certRequest) : Prop := known (ck_suite k) /\ (p_usingClientAuth (ck_params k) = true -> cr <> None).
Definition hs_ok (s : hstate) : Prop :=
  match s with
  | CStart st => st_params st = no_params
  | CWaitSH ws => p_usingClientAuth (ws_params ws) = false
  | CWaitEE k | CWaitCertCR k => ck_ok k None
  | CWaitCert k cr => ck_ok k (Some cr)
  | CWaitCV k _ cr | CWaitFinished k _ cr _ _ => ck_ok k cr
  | SStart => True
  | SNegotiated n => p_usingPSK (n_params n) = false -> n_cert n <> None
  | SWaitEOED k | SWaitFlight2 k | SWaitCert k | SWaitFinished k _ | SReadPastEarlyData (SWaitFlight2 k) => known (sk_suite k)
  | SReadPastEarlyData _ => False
  | SWaitCV k cert => known (sk_suite k) /\ ct_list cert <> []
  | Connected c => known (sc_suite c)
  end.
Definition keys_fine (k : keyset) : Prop := known_id (s_id (k_suite k)) /\ (8 <= List.length (k_iv k))%nat.
Definition fine_act (a : action) : Prop :=
  match a with QueueHandshakeMessage m => hm_datagram m = false | RekeyIn _ k | RekeyOut _ k => keys_fine k | _ => True end.
Definition cfg_fine (client : bool) (c : config) : Prop :=
  cf_extensionHandler c = None /\ Forall known_id (cf_cipherSuites c) /\ Forall (fun kp => kp_chain kp <> []) (cf_certificates c) /\ cf_psks c <> None /\
  (client = false -> cf_requireCookie c = true -> cf_cookieProtector c <> None).

Lemma known_self s : known s -> cipherSuiteMap (s_id s) = Some s.
Proof.
  intros [id H]. unfold cipherSuiteMap in H. destruct (id =? _); [injection H as <-; reflexivity|]. destruct (id =? _); [injection H as <-; reflexivity|]. discriminate.
Qed.
Lemma known_some id s : cipherSuiteMap id = Some s -> known s. Proof. now exists id. Qed.
Lemma expand_long P h secret label d n : mac_sized P -> (n <= 255)%nat -> List.length (hkdfExpandLabel P h secret label d n) = n.
Proof. intros M H. unfold hkdfExpandLabel. apply expand_rfc; auto. destruct h; cbn; lia. Qed.
Lemma keys_fine_make P s secret : mac_sized P -> known s -> keys_fine (makeTrafficKeys P s secret).
Proof.
  intros M K. split; [unfold known_id; cbn; rewrite known_self by exact K; discriminate|]. cbn [makeTrafficKeys k_iv].
  assert (s_ivlen s = 12%nat) as ->; [|rewrite expand_long; [lia|exact M|lia]].
  destruct K as [id K]. unfold cipherSuiteMap in K. destruct (id =? _); [injection K as <-; reflexivity|]. destruct (id =? _); [injection K as <-; reflexivity|]. discriminate.
Qed.

(** ** Walking through a step *)

Definition tr {A} (w0 : world) (Q : Prop) (G : A -> Prop) (p : world * res A) : Prop :=
  wstill w0 (fst p) /\ frame w0 (fst p) /\ (snd p = Panic -> Q) /\ forall a, snd p = Ok a -> G a.
Lemma tr_pair {A} w0 (Q : Prop) (G : A -> Prop) w r : wstill w0 w -> frame w0 w -> (r = Panic -> Q) -> (forall a, r = Ok a -> G a) -> tr w0 Q G (w, r).
Proof. intros S F H K. exact (conj S (conj F (conj H K))). Qed.
Lemma tr_alert {A} w0 (Q : Prop) (G : A -> Prop) w n : wstill w0 w -> frame w0 w -> tr w0 Q G (w, alert n).
Proof. intros. apply tr_pair; auto; discriminate. Qed.
Lemma tr_ok {A} w0 (Q : Prop) (G : A -> Prop) w a : wstill w0 w -> frame w0 w -> G a -> tr w0 Q G (w, Ok a).
Proof. intros. apply tr_pair; auto; [discriminate|]. intros ? H2. apply Ok_inj in H2. now subst. Qed.
Lemma tr_pure {A B} w0 (Q : Prop) (G : B -> Prop) w (r : res A) f : wstill w0 w -> frame w0 w -> (r = Panic -> Q) -> (forall a, r = Ok a -> tr w0 Q G (f w a)) -> tr w0 Q G (sbind (w, r) f).
Proof. intros S F H K. destruct r as [a|e| |]; cbn [sbind]; [auto|apply tr_pair; auto; discriminate|apply tr_pair; auto; discriminate|apply tr_pair; auto; discriminate]. Qed.
Lemma tr_np {A B} w0 (Q : Prop) (G : B -> Prop) w (r : res A) f : wstill w0 w -> frame w0 w -> no_panic r -> (forall a, r = Ok a -> tr w0 Q G (f w a)) -> tr w0 Q G (sbind (w, r) f).
Proof. intros S F H K. apply tr_pure; auto. intros E. now destruct H. Qed.
Lemma tr_call {A B} w0 (Q : Prop) (G1 : A -> Prop) (G : B -> Prop) p f : tr w0 Q G1 p -> (forall w a, wstill w0 w -> frame w0 w -> G1 a -> tr w0 Q G (f w a)) -> tr w0 Q G (sbind p f).
Proof.
  destruct p as [w [a|e| |]]; intros (S & F & H & K) L; cbn [sbind fst snd] in *; [auto|apply tr_pair; auto; discriminate|apply tr_pair; auto; discriminate|apply tr_pair; auto; discriminate].
Qed.
Lemma tr_make w0 (Q : Prop) w b : wstill w0 w -> frame w0 w -> tr w0 Q (fun m => hm_datagram m = false /\ body_marshal b = Ok (hm_body m)) (makeMessage w b).
Proof.
  intros S F. split; [now apply st_make|]. split; [now apply frame_make|]. pose proof (np_body b) as N. unfold makeMessage. destruct S as (_ & _ & _ & _ & D & _).
  destruct (body_marshal b) as [d|e| |]; cbn [fst snd]; (split; [intros E; try discriminate; congruence|]); intros a E; try discriminate.
  unfold messageFromBody in E |- *. destruct (x_out (w_ctx w)) eqn:X. cbn in E, D. apply Ok_inj in E. subst a. cbn. split; [exact D|reflexivity].
Qed.
Lemma tr_new w0 (Q : Prop) w b : wstill w0 w -> frame w0 w -> tr w0 Q (fun m => hm_datagram m = false) (newMessage w b).
Proof.
  intros S F. unfold newMessage. pose proof (tr_make w0 Q w b S F) as (A & B & C & D). destruct (makeMessage w b) as [w' r]. cbn [fst snd] in *. apply tr_pair; auto.
  - intros E. apply C. destruct r; cbn in E; congruence.
  - intros a E. apply or_alert_ok in E. now apply D.
Qed.
Lemma tr_weaken {A} w0 (Q Q' : Prop) (G G' : A -> Prop) p : (Q -> Q') -> (forall a, G a -> G' a) -> tr w0 Q G p -> tr w0 Q' G' p.
Proof. intros H K (A1 & B & C & D). split; [exact A1|]. split; [exact B|]. split; auto. Qed.
Lemma send_none o c h l : cf_extensionHandler c = None -> ext_send o c h l = Ok l. Proof. unfold ext_send. now intros ->. Qed.
Lemma recv_none o c h l : cf_extensionHandler c = None -> ext_recv o c h l = Ok l. Proof. unfold ext_recv. now intros ->. Qed.
Lemma frame_cfg w0 w : frame w0 w -> w_cfg w = w_cfg w0. Proof. now intros []. Qed.

Lemma sbind_value {S A B} (w : S) a (f : S -> A -> S * res B) : sbind (w, Ok a) f = f w a. Proof. reflexivity. Qed.
Ltac tst := solve [auto 12 with st frame].
Ltac tpair := apply tr_pair; [tst|tst| |].
Ltac tnp := apply tr_np; [tst|tst| |].
Ltac talert := apply tr_alert; tst.
Ltac tcall L := eapply tr_call; [apply L; tst|].
#[export] Hint Resolve np_calm : nopanic.

Definition good (r : outcome) : Prop := let '(s, acts, _) := r in hs_ok s /\ Forall fine_act acts.
Lemma Forall_app2 {A} (Q : A -> Prop) l m : Forall Q l -> Forall Q m -> Forall Q (l ++ m).
Proof. intros. apply Forall_app. auto. Qed.

(** ** What the extensions of a hello hold *)

Lemma parse_one_keeps {S} l t (un : S -> bytes -> res S) (I : S -> Prop) : (forall e s s', In e l -> e_type e = t -> I s -> un s (e_data e) = Ok s' -> I s') ->
  forall found s found' s', I s -> el_parse_one l t un found s = Ok (found', s') -> I s'.
Proof.
  induction l as [|e l IH]; intros H found s found' s' Is K; cbn [el_parse_one] in K; [now injection K as _ <-|].
  assert (IH' : forall found s found' s', I s -> el_parse_one l t un found s = Ok (found', s') -> I s'). { apply IH. intros ? ? ? In'. apply H. now right. }
  destruct (N.eqb_spec (e_type e) t) as [T|]; [|eauto]. destruct (existsb _ _); [discriminate|]. inv_bind K as s1 K1. eapply IH'; [|exact K]. eapply H; eauto. now left.
Qed.
Lemma parse_keeps {S} l (dsts : list (N * (S -> bytes -> res S))) (I : S -> Prop) :
  Forall (fun d => forall e s s', In e l -> e_type e = fst d -> I s -> snd d s (e_data e) = Ok s' -> I s') dsts ->
  forall s found' s', I s -> el_parse l dsts s = Ok (found', s') -> I s'.
Proof.
  unfold el_parse. generalize (@nil N). intros f F. revert f. induction F as [|[t un] dsts H _ IH]; intros f s found' s' Is K; cbn [el_parse_all] in K; [now injection K as _ <-|].
  inv_bind K as [f1 s1] K1. eapply IH; [|exact K]. eapply parse_one_keeps; [exact H|exact Is|exact K1].
Qed.
Lemma sh_share l found sel ks : el_parse l sh_dsts (None, None) = Ok (found, (sel, Some ks)) ->
  exists e m, In e l /\ e_type e = 51 /\ ks_server_unmarshal (e_data e) = Ok (ks, m).
Proof.
  intros K. refine (parse_keeps l sh_dsts (fun s => forall ks, snd s = Some ks -> exists e m, In e l /\ e_type e = 51 /\ ks_server_unmarshal (e_data e) = Ok (ks, m)) _ _ _ _ _ K ks eq_refl).
  - repeat constructor; cbn [fst snd]; intros e s s' I T H U; inv_bind U as v U1; apply Ok_inj in U; subst s'; cbn [snd]; [exact H|]. intros ks0 [= ->].
    apply safe_all in U1. eauto.
  - discriminate.
Qed.
Definition hello_facts (l : list ext) (x : chexts) : Prop :=
  List.length (fst (cx_psk x)) = List.length (snd (cx_psk x)) /\
  (cx_cookie x <> [] -> exists e, In e l /\ e_type e = 44) /\
  (forall s, In s (cx_shares x) -> exists e shares m, In e l /\ e_type e = 51 /\ ks_client_unmarshal (e_data e) = Ok (shares, m) /\ In s shares).
Lemma ch_facts l found x : el_parse l ch_dsts no_chexts = Ok (found, x) -> hello_facts l x.
Proof.
  apply parse_keeps.
  - unfold ch_dsts. repeat (apply Forall_cons); [..|apply Forall_nil]; cbn [fst snd]; intros e s s' I T H U; inv_bind U as v U1; apply Ok_inj in U; subst s'; try exact H;
      destruct H as (H1 & H2 & H3); unfold hello_facts; cbn [cx_psk cx_cookie cx_shares]; apply safe_all in U1; (split; [|split]); auto; intros; eauto 8.
    unfold psk_client_unmarshal in U1. inv_bind U1 as [[i b] n] D. destruct (Nat.eqb_spec (List.length i) (List.length b)) as [L|]; [|discriminate]. cbn [negb] in U1. injection U1 as <- _. exact L.
  - split; [reflexivity|]. split; [contradiction|]. contradiction.
Qed.

(** ** The client's steps *)

Section steps.
Variables (P : prims) (X : pki) (o : oracle).
Hypothesis M : mac_sized P.

Lemma tr_client_start w st : wstill w w -> cfg_fine true (w_cfg w) -> st_params st = no_params -> tr w False good (client_start P o w st).
Proof.
  intros S (Hh & _ & _ & Hp & _) Ep. pose proof (frame_refl w) as F. unfold client_start.
  tnp; [apply np_alert, np_shares|]. intros [shares dh] _. destruct (o_random o) as [random|]; [|talert].
  tnp; [apply np_alert, np_client_extensions|]. intros exts Ee. apply or_alert_ok, client_extensions_values in Ee. destruct Ee as (_ & _ & N41 & _).
  rewrite send_none, sbind_value by exact Hh. destruct (cf_psks (w_cfg w)); [|contradiction].
  destruct (cache_get _ _) as [key|].
  - destruct (cipherSuiteMap (psk_suite key)) as [ps|] eqn:Es; [|talert]. tnp; [apply np_alert, np_client_psk|].
    intros [[ch es] early] Ec. apply or_alert_ok in Ec. apply client_psk_marshals in Ec; [|exact M|exact N41]. destruct Ec as [b Eb].
    pose proof (tr_make w False w (BClientHello ch) S F) as (A1 & A2 & A3 & A4). unfold makeMessage in *. cbn [body_marshal] in *. rewrite Eb in *.
    destruct (messageFromBody _ _ _) as [h m]. cbn [fst snd sbind] in *. destruct (A4 m eq_refl) as [Dm _]. apply tr_ok; [tst|tst|].
    split; [cbn; now rewrite Ep|]. cbn [app]. constructor; [exact Dm|]. constructor; [exact I|]. destruct (_ || _); [|constructor].
    constructor; [|constructor]. apply keys_fine_make; eauto using known_some.
  - eapply tr_call; [apply tr_new; tst|]. intros w1 m S1 F1 Dm. apply tr_ok; [tst|tst|]. split; [cbn; now rewrite Ep|]. rewrite Ep. cbn.
    constructor; [exact Dm|]. constructor; [exact I|constructor].
Qed.

Lemma np_find {A} l t (un : bytes -> res (A * nat)) r n : (forall d, calm (un d)) -> el_find l t un = Some r -> no_panic (or_alert r n).
Proof. intros C E. apply np_alert, np_calm. eauto using calm_find. Qed.

Lemma client_hrr_crash w st hm sh : wstill w w -> cf_extensionHandler (w_cfg w) = None -> known_id (sh_suite sh) ->
  w_cfg (fst (client_hrr P o w st hm sh)) = set_suites (w_cfg w) [sh_suite sh] /\ snd (client_hrr P o w st hm sh) <> Panic /\ forall a, snd (client_hrr P o w st hm sh) = Ok a -> good a.
Proof.
  intros S Hh K. assert (T : tr (set_cfg w (set_suites (w_cfg w) [sh_suite sh])) False good (client_hrr P o w st hm sh)).
  2:{ destruct T as (_ & F & H & H'). split; [exact (frame_cfg _ _ F)|]. split; [exact H|exact H']. }
  unfold client_hrr. set (w1 := set_cfg w _). assert (S1 : wstill w1 w1) by exact S. pose proof (frame_refl w1) as F1.
  rewrite recv_none, sbind_value by exact Hh. tnp.
  - destruct (el_find _ _ _) as [r|] eqn:E; [|discriminate]. pose proof (np_find _ _ _ _ AlertDecodeError calm_cookie E) as N. destruct (or_alert r _); cbn; congruence.
  - intros [cookie|] _; [|talert]. destruct (negb _); [talert|]. destruct (cipherSuiteMap (sh_suite sh)) eqn:E; [|contradiction].
    apply tr_ok; [tst|tst|]. split; [reflexivity|]. constructor; [exact I|constructor].
Qed.

Lemma tr_client_server_hello w st hm sh : wstill w w -> cf_extensionHandler (w_cfg w) = None -> p_usingClientAuth (ws_params st) = false ->
  tr w (exists e s m, In e (sh_exts sh) /\ e_type e = 51 /\ ks_server_unmarshal (e_data e) = Ok (s, m) /\ bad_share P s) good (client_server_hello P o w st hm sh).
Proof.
  intros S Hh Ep. pose proof (frame_refl w) as F. unfold client_server_hello. rewrite recv_none, sbind_value by exact Hh.
  tnp; [apply np_alert, np_calm, calm_sh_dsts|]. intros [found [sel share]] K. apply or_alert_ok in K. apply tr_pure; [tst|tst| |].
  - destruct share as [ks|]; [|discriminate]. destruct (dh_lookup _ _) as [priv|]; [|discriminate]. destruct (keyAgreement _ _ _ _) eqn:A; try discriminate. intros _.
    apply agreement_panic in A. destruct (sh_share _ _ _ _ K) as (e & m & I & T & U). exists e, ks, m. unfold bad_share. destruct A. eauto 8.
  - intros [usingDH z] _. destruct (cipherSuiteMap (sh_suite sh)) as [ps|] eqn:Es; [|talert]. destruct (handshake_secrets _ _ _ _ _) as [[chs shs] master]. apply tr_ok; [tst|tst|].
    split; [split; [eauto using known_some|cbn; congruence]|]. constructor; [apply keys_fine_make; eauto using known_some|]. destruct (p_clientSendingEarlyData _); [constructor|].
    constructor; [apply keys_fine_make; eauto using known_some|constructor].
Qed.

Lemma fine_suites w s : cfg_fine true (w_cfg w) -> known_id s -> cfg_fine true (set_suites (w_cfg w) [s]).
Proof. intros (A & B & C & D & E) K. unfold cfg_fine, set_suites. cbn. repeat split; auto. Qed.
Lemma client_wait_sh_crash w st hm : wstill w w -> cfg_fine true (w_cfg w) -> p_usingClientAuth (ws_params st) = false -> let p := client_wait_sh P o w st hm in
  cfg_fine true (w_cfg (fst p)) /\ (forall a, snd p = Ok a -> good a) /\
  (snd p = Panic -> exists sh n e s m, sh_unmarshal (hm_body hm) = Ok (sh, n) /\ In e (sh_exts sh) /\ e_type e = 51 /\ ks_server_unmarshal (e_data e) = Ok (s, m) /\ bad_share P s).
Proof.
  intros S C Ep. cbv zeta. assert (A0 : forall n, let p := (w, @alert outcome n) in cfg_fine true (w_cfg (fst p)) /\ (forall a, snd p = Ok a -> good a) /\ (snd p = Panic -> exists sh n e s m, sh_unmarshal (hm_body hm) = Ok (sh, n) /\ In e (sh_exts sh) /\ e_type e = 51 /\ ks_server_unmarshal (e_data e) = Ok (s, m) /\ bad_share P s)).
  { intros n. split; [exact C|]. split; discriminate. }
  unfold client_wait_sh. destruct (negb _); [apply A0|]. pose proof (calm_sh (hm_body hm)) as [Np Nf]. destruct (sh_unmarshal (hm_body hm)) as [[sh n]|e| |]; cbn [or_alert sbind]; [|apply A0|congruence|congruence].
  destruct (negb _); [apply A0|]. destruct (el_find _ _ _) as [r|] eqn:Ef; [|apply A0].
  assert (R : forall v, r = Ok v -> exists x, v = [x]).
  { intros v ->. clear - Ef. induction (sh_exts sh) as [|e l IH]; cbn [el_find] in Ef; [discriminate|]. destruct (_ =? _); [|auto]. injection Ef as Ef. apply safe_all in Ef.
    unfold versions_server_unmarshal, decoded in Ef. inv_bind Ef as [v0 n] D. injection Ef as <- _. eauto. }
  pose proof (calm_find _ _ _ _ calm_versions_server Ef) as [Rp Rf]. destruct r as [v|e| |]; cbn [or_alert sbind]; [|apply A0|congruence|congruence].
  destruct (R v eq_refl) as (x & ->). destruct (negb _); [apply A0|]. destruct (existsb _ _) eqn:Ex; [|apply A0]. cbn [negb].
  assert (K : known_id (sh_suite sh)). { apply existsb_exists in Ex. destruct Ex as (y & I & Q). apply N.eqb_eq in Q. subst y. destruct C as (_ & C & _). rewrite Forall_forall in C. now apply C. }
  destruct (beqb _ _).
  - destruct (client_hrr_crash w st hm sh S (proj1 C) K) as (H1 & H2 & H3). rewrite H1. split; [now apply fine_suites|]. split; [exact H3|]. intros H4. now destruct H2.
  - destruct (tr_client_server_hello w st hm sh S (proj1 C) Ep) as (_ & F & H1 & H2). rewrite (frame_cfg _ _ F). split; [exact C|]. split; [exact H2|]. intros H3.
    destruct (H1 H3) as (e & s & m & H). exists sh, n, e, s, m. auto.
Qed.

Lemma tr_client_wait_ee w k hm : wstill w w -> cf_extensionHandler (w_cfg w) = None -> ck_ok k None -> tr w False good (client_wait_ee P o w k hm).
Proof.
  intros S Hh [K Ka]. pose proof (frame_refl w) as F. unfold client_wait_ee. destruct (negb _); [talert|]. tnp; [apply np_alert, np_calm; auto with calm|]. intros exts _.
  rewrite recv_none, sbind_value by exact Hh. tnp; [apply np_alert, np_calm, calm_ee_dsts|]. intros [found protos] _.
  assert (G : Forall fine_act (if p_clientSendingEarlyData (ck_params (set_ck_params k (set_ee_params (ck_params k) (existsb (N.eqb etEarlyData) found)
      match protos with [] => p_nextProto (ck_params k) | p :: _ => p end))) && negb (existsb (N.eqb etEarlyData) found)
     then [RekeyOut EpochHandshakeData (makeTrafficKeys P (ck_suite (set_ck_params k (set_ee_params (ck_params k) (existsb (N.eqb etEarlyData) found)
      match protos with [] => p_nextProto (ck_params k) | p :: _ => p end))) (ck_chs (set_ck_params k (set_ee_params (ck_params k) (existsb (N.eqb etEarlyData) found)
      match protos with [] => p_nextProto (ck_params k) | p :: _ => p end))))] else [])).
  { destruct (_ && _); [|constructor]. constructor; [|constructor]. now apply keys_fine_make. }
  destruct (p_usingPSK _); (apply tr_ok; [tst|tst|]); (split; [split; [exact K|exact Ka]|exact G]).
Qed.
Lemma tr_client_wait_cert_cr w k hm : wstill w w -> ck_ok k None -> tr w False good (client_wait_cert_cr X w k hm).
Proof.
  intros S [K Ka]. pose proof (frame_refl w) as F. unfold client_wait_cert_cr. tnp; [apply np_alert, np_calm, calm_toBody|]. intros b _. destruct b; try talert.
  - apply tr_ok; [tst|tst|]. split; [split; auto|constructor].
  - destruct (cr_context _); [|talert]. apply tr_ok; [tst|tst|]. split; [split; [exact K|discriminate]|constructor].
Qed.
Lemma tr_client_wait_cert w k cr hm : wstill w w -> ck_ok k (Some cr) -> tr w False good (client_wait_cert X w k cr hm).
Proof.
  intros S K. pose proof (frame_refl w) as F. unfold client_wait_cert. destruct (negb _); [talert|]. tnp; [apply np_alert, np_calm; auto with calm|]. intros cert _.
  apply tr_ok; [tst|tst|]. split; [exact K|constructor].
Qed.
Lemma np_verify alg cert i sg : no_panic (verify P X alg cert i sg).
Proof. unfold verify. destruct (hashMap alg) as [[]|]; [|destruct (sig_primitive _ _); [destruct (x_verify _ _ _ _ _ _)|]..|]; discriminate. Qed.
Lemma np_sign alg key i rnd : no_panic (sign P X alg key i rnd).
Proof. unfold sign. destruct (hashMap alg) as [[]|]; [|destruct (sig_primitive _ _); [destruct (x_sign _ _ _ _ _ _)|]..|]; discriminate. Qed.
Lemma np_cv_sign alg key i rnd : no_panic (cv_sign P X alg key i rnd).
Proof. unfold cv_sign. apply no_panic_bind; [apply np_sign|]. discriminate. Qed.
Lemma tr_client_wait_cv w k cert cr hm : wstill w w -> ck_ok k cr -> tr w (ct_list cert = []) good (client_wait_cv P X o w k cert cr hm).
Proof.
  intros S K. pose proof (frame_refl w) as F. unfold client_wait_cv. destruct (negb _); [talert|]. tnp; [apply np_alert, np_calm; auto with calm|]. intros cv _.
  destruct (ct_list cert) as [|e l]; cbn [map]; [tpair; [reflexivity|discriminate]|]. tnp; [apply np_alert, np_verify|]. intros [] _. tnp.
  - destruct (cf_insecureSkipVerify _); [discriminate|]. destruct (x_chain _ _ _ _ _ _); discriminate.
  - intros chains _. destruct (negb _); [talert|]. apply tr_ok; [tst|tst|]. split; [exact K|constructor].
Qed.
Lemma tr_client_eoed w0 w k : wstill w0 w -> frame w0 w -> known (ck_suite k) -> tr w0 False (Forall fine_act) (client_eoed P w k).
Proof.
  intros S F K. unfold client_eoed. destruct (p_usingEarlyData _); [|apply tr_ok; [tst|tst|constructor]]. eapply tr_call; [apply tr_new; tst|]. intros w1 m S1 F1 Dm.
  apply tr_ok; [tst|tst|]. constructor; [exact Dm|]. constructor; [now apply keys_fine_make|constructor].
Qed.
Lemma np_scheme schemes certs : no_panic (cert_scheme X schemes certs).
Proof. induction certs as [|c certs IH]; cbn [cert_scheme]; [discriminate|]. destruct (find _ _); [discriminate|exact IH]. Qed.
Lemma tr_client_auth w0 w k certs cr : wstill w0 w -> frame w0 w -> ck_ok k cr -> tr w0 False (Forall fine_act) (client_auth P X o w k certs cr).
Proof.
  intros S F [K Ka]. unfold client_auth. destruct (p_usingClientAuth _) eqn:U; cbn [negb]; [|apply tr_ok; [tst|tst|constructor]].
  destruct cr as [cr|]; [|now destruct (Ka eq_refl)]. destruct (el_find _ _ _) as [r|] eqn:E; [|talert]. tnp; [exact (np_find _ _ _ _ _ calm_list16 E)|]. intros schemes _.
  pose proof (np_scheme schemes certs) as Np. cbn [certificateSelection]. destruct (cert_scheme _ _ _) as [[cert scheme]|e| |].
  - eapply tr_call; [apply tr_new; tst|]. intros w1 m1 S1 F1 D1. tnp; [apply np_alert, np_cv_sign|]. intros cv _. eapply tr_call; [apply tr_new; tst|]. intros w2 m2 S2 F2 D2.
    apply tr_ok; [tst|tst|]. constructor; [exact D1|]. constructor; [exact D2|constructor].
  - eapply tr_call; [apply tr_new; tst|]. intros w1 m1 S1 F1 D1. apply tr_ok; [tst|tst|]. constructor; [exact D1|constructor].
  - congruence.
  - tpair; discriminate.
Qed.
Lemma tr_client_wait_finished w k certs cr peer chains hm : wstill w w -> ck_ok k cr -> tr w False good (client_wait_finished P X o w k certs cr peer chains hm).
Proof.
  intros S K. pose proof (frame_refl w) as F. unfold client_wait_finished. destruct (negb _); [talert|]. tnp; [apply np_alert, np_calm; auto with calm|]. intros vd _.
  destruct (negb _); [talert|]. eapply tr_call; [apply tr_client_eoed; [tst|tst|apply K]|]. intros w1 a1 S1 F1 G1. eapply tr_call; [apply tr_client_auth; [tst|tst|exact K]|].
  intros w2 a2 S2 F2 G2. eapply tr_call; [apply tr_new; tst|]. intros w3 m S3 F3 D3. apply tr_ok; [tst|tst|]. split; [apply K|].
  apply Forall_app2; [exact G1|]. apply Forall_app2; [exact G2|]. destruct K as [K _].
  constructor; [exact D3|]. constructor; [exact I|]. constructor; [now apply keys_fine_make|]. constructor; [now apply keys_fine_make|constructor].
Qed.

(** ** The server's steps *)

Lemma tr_hrr w0 w s ses t : wstill w0 w -> frame w0 w -> cf_extensionHandler (w_cfg w0) = None -> tr w0 False (fun m => hm_datagram m = false) (generateHRR o w s ses t).
Proof.
  intros S F Hh. unfold generateHRR. tnp.
  - apply np_alert, no_panic_bind; [apply np_add; unfold versions_server_marshal; auto with nopanic|]. intros l _. apply np_add. unfold cookie_marshal. auto with nopanic.
  - intros exts _. rewrite send_none, sbind_value by (rewrite (frame_cfg _ _ F); exact Hh). now apply tr_new.
Qed.
Lemma np_cookie_of plain : no_panic (cookie_of plain).
Proof. unfold cookie_of. assert (calm (co_unmarshal plain)) as [C _] by (apply calm_decoded; repeat split; cbn; intuition (discriminate || lia)). destruct (co_unmarshal plain) as [[? ?]|e| |]; try discriminate; [|congruence]. destruct plain; discriminate. Qed.
Lemma check_cookie_panic cfg token : check_cookie o cfg token = Panic -> cf_cookieProtector cfg = None.
Proof.
  unfold check_cookie. destruct (cf_cookieProtector cfg) as [pr|]; [|reflexivity]. destruct (o_decodeToken _ _ _) as [plain|]; [|discriminate]. pose proof (np_cookie_of plain) as N.
  destruct (cookie_of plain) as [c|e| |]; try discriminate; [|congruence]. cbn [or_alert bind]. destruct (negb _); [discriminate|]. destruct (cipherSuiteMap _); discriminate.
Qed.
Lemma np_psk now get ids : forall i binders ctx, (i + List.length ids <= List.length binders)%nat -> no_panic (pskNegotiation P now get i ids binders ctx).
Proof.
  induction ids as [|id ids IH]; intros i binders ctx L; cbn [pskNegotiation]; [discriminate|]. cbn [List.length] in L. destruct (get _) as [p|]; [|apply IH; lia].
  destruct (_ && _); [discriminate|]. destruct (cipherSuiteMap _); [|discriminate]. destruct (nth_error binders i) eqn:N; [destruct (beqb _ _); discriminate|].
  apply nth_error_None in N. lia.
Qed.
Lemma psk_known now get ids : forall i binders ctx j p ps, pskNegotiation P now get i ids binders ctx = Ok (Some (j, p, ps)) -> cipherSuiteMap (psk_suite p) = Some ps.
Proof.
  induction ids as [|id ids IH]; intros i binders ctx j p ps; cbn [pskNegotiation]; [discriminate|]. destruct (get _) as [q|]; [|apply IH].
  destruct (_ && _); [discriminate|]. destruct (cipherSuiteMap _) eqn:E; [|discriminate]. destruct (nth_error binders i); [|discriminate]. destruct (beqb _ _); [|discriminate].
  now intros [= _ -> ->].
Qed.
Definition psk_fine (c : option (nat * psk * suite)) : Prop := forall i p ps, c = Some (i, p, ps) -> cipherSuiteMap (psk_suite p) = Some ps.
Lemma tr_server_psk w0 w ch x first : wstill w0 w -> frame w0 w -> cfg_fine false (w_cfg w0) -> List.length (fst (cx_psk x)) = List.length (snd (cx_psk x)) ->
  tr w0 False psk_fine (server_psk P o w ch x first).
Proof.
  intros S F (Hh & _ & _ & Hp & _) L. unfold server_psk. destruct (cx_psk x) as [ids binders]. cbn [fst snd] in L. destruct ids as [|id ids]; [apply tr_ok; [tst|tst|discriminate]|].
  apply (tr_call _ _ (fun _ => True)).
  - destruct first as [f|]; [|apply tr_ok; [tst|tst|exact I]]. eapply tr_call; [apply tr_hrr; [tst|tst|exact Hh]|]. intros w1 m S1 F1 _. apply tr_ok; [tst|tst|exact I].
  - intros w1 base S1 F1 _. tnp; [apply np_alert, np_truncated|]. intros trunc _. rewrite (frame_cfg _ _ F1). destruct (cf_psks _); [|contradiction]. tpair.
    + intros K. exfalso. revert K. apply np_alert, np_psk. rewrite L. auto.
    + intros c K. apply or_alert_ok in K. intros i p ps ->. eapply psk_known, K.
Qed.
Lemma np_new_cookie cfg s hello : known_id s -> cf_cookieProtector cfg <> None -> no_panic (new_cookie P o cfg s hello).
Proof.
  intros K C. unfold new_cookie. apply no_panic_bind. { destruct (cf_cookieHandler _); [destruct (o_generate _ _)|]; discriminate. }
  intros [app|] _; [|discriminate]. unfold known_id in K. destruct (cipherSuiteMap s); [|contradiction]. apply no_panic_bind; [apply np_alert; unfold co_marshal; auto with nopanic|].
  intros plain _. destruct (cf_cookieProtector cfg); [|contradiction]. destruct (o_newToken _ _ _); discriminate.
Qed.
Lemma tr_server_retry w0 w ch s hello sent : wstill w0 w -> frame w0 w -> cfg_fine false (w_cfg w0) -> known_id s ->
  tr w0 False (fun r => forall m, fst r = Some m -> hm_datagram m = false) (server_retry P o w ch s hello sent).
Proof.
  intros S F (Hh & _ & _ & _ & Hc) K. unfold server_retry. rewrite (frame_cfg _ _ F). destruct (cf_requireCookie (w_cfg w0)) eqn:R; cbn [negb]; [|apply tr_ok; [tst|tst|discriminate]].
  destruct sent as [|x sent].
  - tnp; [apply np_new_cookie; auto|]. intros [t|] _; [|apply tr_ok; [tst|tst|discriminate]]. eapply tr_call; [apply tr_hrr; [tst|tst|exact Hh]|]. intros w1 m S1 F1 D.
    apply tr_ok; [tst|tst|]. now intros m' [= <-].
  - eapply tr_call; [apply tr_hrr; [tst|tst|exact Hh]|]. intros w1 m S1 F1 D. apply tr_ok; [tst|tst|]. now intros m' [= <-].
Qed.
Lemma suite_known key offered supported s : cipherSuiteNegotiation key offered supported = Ok s -> (forall p, key = Some p -> known_id (psk_suite p)) -> Forall known_id supported -> known_id s.
Proof.
  intros K Hk Hs. induction offered as [|s1 offered IH]; cbn [cipherSuiteNegotiation] in K; [discriminate|]. destruct (match key with Some _ => _ | None => _ end) eqn:E; [|auto].
  injection K as <-. destruct key as [p|].
  - apply N.eqb_eq in E. subst s1. now apply Hk.
  - apply existsb_exists in E. destruct E as (y & I & Q). apply N.eqb_eq in Q. subst y. rewrite Forall_forall in Hs. now apply Hs.
Qed.
Lemma np_certs_for name certs : Forall (fun kp => kp_chain kp <> []) certs -> no_panic (certs_for X name certs).
Proof. induction 1 as [|c certs H F IH]; cbn [certs_for]; [discriminate|]. destruct (kp_chain c); [contradiction|]. apply no_panic_bind; [exact IH|]. discriminate. Qed.
Lemma np_server_cert cfg found x u : Forall (fun kp => kp_chain kp <> []) (cf_certificates cfg) -> no_panic (server_cert X cfg found x u).
Proof.
  intros C. unfold server_cert. destruct u; [discriminate|]. destruct (negb _); [discriminate|]. apply no_panic_bind; [|intros [? ?]; discriminate]. apply np_alert. unfold certificateSelection.
  apply no_panic_bind; [now apply np_certs_for|]. intros [|c l] _; [discriminate|apply np_scheme].
Qed.
Lemma np_suites key offered supported : no_panic (cipherSuiteNegotiation key offered supported).
Proof. induction offered as [|s l IH]; cbn [cipherSuiteNegotiation]; [discriminate|]. destruct (match key with Some _ => _ | None => _ end); [discriminate|exact IH]. Qed.
Lemma np_alpn key offered supported : no_panic (alpnNegotiation key offered supported).
Proof. unfold alpnNegotiation. destruct (alpn_loop _ _ _); [discriminate|]. destruct key; [|discriminate]. destruct (_ && _); discriminate. Qed.

Definition hello_cause (cfg : config) (body : bytes) : Prop := exists ch n, ch_unmarshal 771 body = Ok (ch, n) /\
  ((cf_cookieProtector cfg = None /\ exists e, In e (ch_exts ch) /\ e_type e = 44) \/
   exists e shares m s, In e (ch_exts ch) /\ e_type e = 51 /\ ks_client_unmarshal (e_data e) = Ok (shares, m) /\ In s shares /\ bad_share P s).
Lemma tr_server_start w hm : wstill w w -> cfg_fine false (w_cfg w) -> tr w (hello_cause (w_cfg w) (hm_body hm)) good (server_start P X o w hm).
Proof.
  intros S C. pose proof (frame_refl w) as F. unfold server_start. destruct (negb _); [talert|].
  assert (wireVersion (x_in (w_ctx w)) = 771) as ->. { unfold wireVersion. destruct S as (_ & _ & _ & D & _). now rewrite D. }
  tnp; [apply np_alert, np_calm; auto with calm|]. intros ch Ec. apply or_alert_ok, safe_all in Ec. destruct (negb _); [talert|]. rewrite recv_none, sbind_value by apply C.
  tnp; [apply np_alert, np_calm, calm_ch_dsts|]. intros [found x] Ex. apply or_alert_ok, ch_facts in Ex. destruct Ex as (X1 & X2 & X3).
  destruct (negb _); [talert|]. destruct (versionNegotiation _ _); [|talert]. apply tr_pure; [tst|tst| |].
  { destruct (cx_cookie x) as [|t0 token]; [discriminate|]. intros K. destruct (check_cookie _ _ _) eqn:Ck; try discriminate. apply check_cookie_panic in Ck. exists ch, (List.length (hm_body hm)).
    split; [exact Ec|]. left. split; [exact Ck|]. apply X2. discriminate. }
  intros checked _. destruct (negb _); [talert|]. apply tr_pure; [tst|tst| |].
  { intros K. apply dh_panic in K. destruct K as (s & I & B). exists ch, (List.length (hm_body hm)). split; [exact Ec|]. right. destruct (X3 s I) as (e & shares & m & H1 & H2 & H3 & H4). exists e, shares, m, s. auto. }
  intros [nk dh] _. eapply tr_call; [eapply tr_weaken; [| |apply tr_server_psk; [tst|tst|exact C|exact X1]]; [contradiction|intros a H; exact H]|]. intros w1 chosen S1 F1 Hc.
  destruct (pskModeNegotiation _ _ _) as [usingDH usingPSK]. tnp; [apply np_alert, np_suites|]. intros s Es. apply or_alert_ok in Es.
  assert (Ks : known_id s).
  { eapply suite_known; [exact Es| |rewrite (frame_cfg _ _ F1); apply C]. intros p Ep. destruct chosen as [[[i q] ps]|]; [|discriminate]. injection Ep as ->. unfold known_id. rewrite (Hc _ _ _ eq_refl). discriminate. }
  destruct (match checked with Some _ => _ | None => _ end); [talert|].
  eapply tr_call; [eapply tr_weaken; [| |apply tr_server_retry; [tst|tst|exact C|exact Ks]]; [contradiction|intros a H; exact H]|]. intros w2 [hrr retry] S2 F2 Hr. cbn [fst] in Hr. destruct retry.
  { apply tr_ok; [tst|tst|]. split; [exact I|]. destruct hrr as [m|]; [|constructor]. constructor; [now apply Hr|]. constructor; [exact I|constructor]. }
  destruct (_ && _); [talert|]. tnp; [apply np_server_cert; rewrite (frame_cfg _ _ F2); apply C|]. intros [cert scheme] Esc. destruct (earlyDataNegotiation _ _ _) as [ue rj].
  tnp; [apply np_alert, np_alpn|]. intros proto _. apply tr_ok; [tst|tst|]. split; [|constructor]. cbn. intros ->. unfold server_cert in Esc. destruct (negb _); [discriminate|].
  inv_bind Esc as [c sch] E1. injection Esc as <- _. discriminate.
Qed.

Lemma tr_server_auth w0 w n ps : wstill w0 w -> frame w0 w -> (p_usingPSK (n_params n) = false -> n_cert n <> None) -> tr w0 False (fun r => Forall fine_act (snd r)) (server_auth P X o w n ps).
Proof.
  intros S F H. unfold server_auth. destruct (p_usingPSK _); [apply tr_ok; [tst|tst|constructor]|]. apply (tr_call _ _ (fun r => Forall fine_act (snd r))).
  - destruct (cf_requireClientAuth _); [|apply tr_ok; [tst|tst|constructor]]. tnp; [apply np_alert, np_add; unfold list16_marshal; auto with nopanic|]. intros exts _.
    eapply tr_call; [apply tr_new; tst|]. intros w1 m S1 F1 D1. apply tr_ok; [tst|tst|]. constructor; [exact D1|constructor].
  - intros w1 [auth cr] S1 F1 G. destruct (n_cert n) as [cert|]; [|now destruct (H eq_refl)]. eapply tr_call; [apply tr_new; tst|]. intros w2 m2 S2 F2 D2.
    tnp; [apply np_alert, np_cv_sign|]. intros cv _. eapply tr_call; [apply tr_new; tst|]. intros w3 m3 S3 F3 D3. apply tr_ok; [tst|tst|]. cbn [snd] in *. apply Forall_app2; [exact G|].
    constructor; [exact D2|]. constructor; [exact D3|constructor].
Qed.
Definition early_in (r : outcome) : Prop := let '(s, acts, _) := r in match s with SWaitEOED _ => exists front k, acts = front ++ [RekeyIn EpochEarlyData k] | _ => True end.
Lemma tr_server_negotiated w n : wstill w w -> cf_extensionHandler (w_cfg w) = None -> (p_usingPSK (n_params n) = false -> n_cert n <> None) ->
  tr w False (fun r => good r /\ early_in r) (server_negotiated P X o w n).
Proof.
  intros S Hh Hn. pose proof (frame_refl w) as F. unfold server_negotiated. destruct (o_random o) as [random|]; [|talert].
  tnp. { apply np_alert. unfold server_hello_exts. apply no_panic_bind; [apply np_add; unfold versions_server_marshal; auto with nopanic|]. intros l1 _. apply no_panic_bind.
         - destruct (p_usingDH _); [apply np_add; auto with nopanic|discriminate].
         - intros l2 _. destruct (p_usingPSK _); [apply np_add; unfold psk_server_marshal; auto with nopanic|discriminate]. }
  intros exts _. rewrite send_none, sbind_value by exact Hh. eapply tr_call; [apply tr_new; tst|]. intros w1 shm S1 F1 D1. destruct (cipherSuiteMap _) as [ps|] eqn:Es; [|talert].
  apply known_some in Es. destruct (handshake_secrets _ _ _ _ _) as [[chs shs] master].
  tnp. { apply np_alert. unfold server_ee_exts. apply no_panic_bind. - destruct (p_nextProto _); [discriminate|apply np_add; unfold alpn_marshal; auto with nopanic].
         - intros l1 _. destruct (p_usingEarlyData _); [apply np_add; unfold early_marshal; auto with nopanic|discriminate]. }
  intros exts2 _. rewrite send_none, sbind_value by (cbn [w_cfg set_hash]; rewrite (frame_cfg _ _ F1); exact Hh). eapply tr_call; [apply tr_new; tst|]. intros w2 eem S2 F2 D2.
  eapply tr_call; [apply tr_server_auth; [tst|tst|exact Hn]|]. intros w3 [ca auth] S3 F3 G3. eapply tr_call; [apply tr_new; tst|]. intros w4 finm S4 F4 D4. cbn [snd] in G3.
  assert (T : forall x, fine_act x -> forall e1 k1 e2 k2, fine_act (RekeyOut e1 k1) -> fine_act (RekeyOut e2 k2) ->
    Forall fine_act (([QueueHandshakeMessage shm; RekeyOut e1 k1; QueueHandshakeMessage eem] ++ auth ++ [QueueHandshakeMessage finm; SendQueuedHandshake; RekeyOut e2 k2]) ++ [x])).
  { intros x Hx e1 k1 e2 k2 H1 H2. apply Forall_app2; [|constructor; [exact Hx|constructor]]. apply Forall_app2; [constructor; [exact D1|]; constructor; [exact H1|]; constructor; [exact D2|constructor]|].
    apply Forall_app2; [exact G3|]. constructor; [exact D4|]. constructor; [exact I|]. constructor; [exact H2|constructor]. }
  destruct (p_usingEarlyData _).
  - apply tr_ok; [tst|tst|]. split; [split; [exact Es|]|].
    + apply T; now apply keys_fine_make.
    + eexists _, _. reflexivity.
  - apply tr_ok; [tst|tst|]. split; [split; [destruct (p_rejectedEarlyData _); exact Es|]|].
    + apply T; now apply keys_fine_make.
    + cbn. destruct (p_rejectedEarlyData _); exact I.
Qed.
Lemma tr_server_wait_eoed w k hm : wstill w w -> known (sk_suite k) -> tr w False good (server_wait_eoed P w k hm).
Proof.
  intros S K. pose proof (frame_refl w) as F. unfold server_wait_eoed. destruct (negb _); [talert|]. destruct (hm_body hm); [|talert]. apply tr_ok; [tst|tst|]. split; [exact K|].
  constructor; [now apply keys_fine_make|constructor].
Qed.
Lemma tr_server_wait_flight2 w k : wstill w w -> known (sk_suite k) -> tr w False good (server_wait_flight2 w k).
Proof. intros S K. apply tr_ok; [tst|apply frame_refl|]. split; [destruct (p_usingClientAuth _); exact K|constructor]. Qed.
Lemma tr_server_wait_cert w k hm : wstill w w -> known (sk_suite k) -> tr w False good (server_wait_cert X w k hm).
Proof.
  intros S K. pose proof (frame_refl w) as F. unfold server_wait_cert. destruct (negb _); [talert|]. tnp; [apply np_alert, np_calm; auto with calm|]. intros cert _. apply tr_ok; [tst|tst|].
  split; [|constructor]. destruct (ct_list cert) eqn:E; [exact K|]. split; [exact K|congruence].
Qed.
Lemma tr_server_wait_cv w k cert hm : wstill w w -> known (sk_suite k) -> ct_list cert <> [] -> tr w False good (server_wait_cv P X o w k cert hm).
Proof.
  intros S K N. pose proof (frame_refl w) as F. unfold server_wait_cv. destruct (negb _); [talert|]. tnp; [apply np_alert, np_calm; auto with calm|]. intros cv _.
  destruct (ct_list cert) as [|e l]; [contradiction|]. cbn [map]. tnp; [apply np_alert, np_verify|]. intros [] _. destruct (negb _); [talert|]. apply tr_ok; [tst|tst|]. split; [exact K|constructor].
Qed.
Lemma tr_server_wait_finished w k peer hm : wstill w w -> known (sk_suite k) -> tr w False good (server_wait_finished P w k peer hm).
Proof.
  intros S K. pose proof (frame_refl w) as F. unfold server_wait_finished. destruct (negb _); [talert|]. tnp; [apply np_alert, np_calm; auto with calm|]. intros vd _. destruct (negb _); [talert|].
  pose proof (still_final_flight _ _ (st_write _ _ (hm_marshal hm) S)) as A. unfold receivedFinalFlight in *.
  assert (hl_datagram (x_in (w_ctx (hash_write w (hm_marshal hm)))) = false) as D by (destruct S as (_ & _ & _ & D & _); exact D). rewrite D in *. cbn [negb] in *. rewrite sbind_value.
  apply tr_ok; [exact A|tst|]. split; [exact K|]. constructor; [now apply keys_fine_make|constructor].
Qed.
End steps.
