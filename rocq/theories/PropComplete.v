(** Property C67: two ends that suit each other do not fail to shake hands, whatever calls are made at both, however the
    byte streams are cut, and whatever the random values are. *)
From Verif Require Import Base Frame Record RecordSpec Handshake Crypto CryptoSpec PropCrypto Messages MessageSpec Pki SigSpec Negotiation PropNegotiation Machine Conn ConnSpec RunSpec SessionSpec Toy
  PropTrace PropAgree AgreeSpec ChannelSpec PropChannel PropServer PropEnds JointSpec JointProofs PropJoint CompleteSpec PlaySpec CompleteProofs CompleteJoint.

Lemma ended_fine r : ended r -> unfailing r -> fine r.
Proof. unfold fine, unfailing. destruct r as [[]|e| |]; cbn [ended]; try contradiction; intros _ U; [auto|]. rewrite (U e eq_refl). auto. Qed.

Section Play.
Variables (Qc Qs : oracle -> Prop) (E : env) (ccfg scfg : config) (cpsks spsks : cache).
Hypothesis ok : joint_ok Qc Qs E ccfg scfg cpsks spsks.
Hypothesis cp : compatible Qc Qs E ccfg scfg cpsks.

Lemma play_session ce se t n : play Qc Qs E ccfg scfg cpsks spsks ce se t n -> session Qc Qs E ccfg scfg cpsks spsks ce se t n.
Proof.
  induction 1 as [|ce se t n fuel os c' r _ IH Qo T Fr|ce se t n fuel os c' r _ IH Qo T Fr|ce se t n w g c' _ IH U|ce se t n w g c' _ IH U|ce se t n x y _ IH Ex|ce se t n x y _ IH Ex].
  - constructor.
  - destruct (client_unfailing Qc Qs E ccfg scfg cpsks spsks ok cp _ _ _ _ fuel os IH Qo) as [U Sm]. rewrite T in U. cbn [snd] in U. eapply sn_client_handshake; eauto. destruct Fr; [left; now apply ended_fine|now right].
  - destruct (server_unfailing Qc Qs E ccfg scfg cpsks spsks ok cp _ _ _ _ fuel os IH Qo) as [U Sm]. rewrite T in U. cbn [snd] in U. eapply sn_server_handshake; eauto. destruct Fr; [left; now apply ended_fine|now right].
  - now apply sn_client_use.
  - now apply sn_server_use.
  - eapply sn_deliver_server; eauto.
  - eapply sn_deliver_client; eauto.
Qed.
Lemma play_never_fails ce se t n : play Qc Qs E ccfg scfg cpsks spsks ce se t n -> never_fails Qc Qs E n.
Proof.
  intros H fuel os. apply play_session in H. split; intros Qo; [apply (client_unfailing Qc Qs E ccfg scfg cpsks spsks ok cp _ _ _ _ fuel os H Qo)|apply (server_unfailing Qc Qs E ccfg scfg cpsks spsks ok cp _ _ _ _ fuel os H Qo)].
Qed.
End Play.

(** C67: a further call of [Handshake] at either end gives no error but AlertWouldBlock. *)
Theorem C67_never_fails : forall Qc Qs E ccfg scfg cpsks spsks ce se t n, joint_ok Qc Qs E ccfg scfg cpsks spsks -> compatible Qc Qs E ccfg scfg cpsks ->
  play Qc Qs E ccfg scfg cpsks spsks ce se t n -> never_fails Qc Qs E n.
Proof. intros. eapply play_never_fails; eauto. Qed.
Print Assumptions C67_never_fails.
(** C67: so that the conditions of C35, C36, C47 and C63 on the results of the calls hold by themselves. *)
Theorem C67_session : forall Qc Qs E ccfg scfg cpsks spsks ce se t n, joint_ok Qc Qs E ccfg scfg cpsks spsks -> compatible Qc Qs E ccfg scfg cpsks ->
  play Qc Qs E ccfg scfg cpsks spsks ce se t n -> session Qc Qs E ccfg scfg cpsks spsks ce se t n.
Proof. intros. eapply play_session; eauto. Qed.
Print Assumptions C67_session.

(** ** Examples *)

(** Oracles with random values of which none is that of a HelloRetryRequest. *)
Definition toy_plain (o : oracle) : Prop := exists seed, seed < 1000000 /\ o = toy_oracle seed.
Lemma plain_like o : toy_plain o -> toy_like o.
Proof. intros (seed & _ & ->). now exists seed. Qed.
Lemma plain_own g a b : own_key toy_plain toy_prims g a b -> own_key toy_like toy_prims g a b.
Proof. intros (o & i & Q & H). exists o, i. split; [now apply plain_like|exact H]. Qed.
Lemma plain_curves : curves_agree toy_plain toy_plain toy_prims.
Proof. intros g puba priva pubb privb z Ng A B K. exact (toy_curves _ _ _ _ _ _ Ng (plain_own _ _ _ A) (plain_own _ _ _ B) K). Qed.
Lemma plain_inverts : inverts toy_plain.
Proof. intros o o' pr d t A B. exact (toy_inverts _ _ _ _ _ (plain_like _ A) (plain_like _ B)). Qed.

(** Keys for one curve; a signature is the key and what is signed. *)
Definition ec_pki (g : N) : pki :=
  mkPki (fun b => (0 <? List.length b)%nat) (fun c => [c]) (fun _ => KEcdsa g) (fun _ => KEcdsa g) (fun key _ _ d _ => Some (key ++ firstn 64 d)) (fun cert _ _ d sg => beqb sg (cert ++ firstn 64 d))
    (fun _ _ _ cert _ => Some [[cert]]).
Definition ec_env (g : N) : env := mkEnv toy_prims (ec_pki g) toy_gcm (fun n => n).
Definition ec_config (certs : list keypair) (schemes : list N) : config :=
  mkCfg toy_name true 100 16 50 false false None None None false None None false certs None [] [P256] schemes [] (Some 1) [] true false None.

Lemma ec_joint g certs schemes : joint_ok toy_plain toy_plain (ec_env g) (ec_config certs schemes) (ec_config certs schemes) [] [].
Proof.
  split; [exact toy_prims_sized|exact toy_gcm_ok|exact plain_curves| |exact plain_inverts|reflexivity|reflexivity|reflexivity|reflexivity|exact toy_groups|reflexivity|].
  - intros key key' H. discriminate H.
  - intros o buf Q. apply toy_tickets. now apply plain_like.
Qed.
Lemma first_unique (p : N -> Prop) x y b1 : forall b2 a1 a2, b1 ++ x :: a1 = b2 ++ y :: a2 -> Forall (fun a => ~ p a) b1 -> Forall (fun a => ~ p a) b2 -> p x -> p y -> x = y.
Proof.
  induction b1 as [|z b1 IH]; intros [|z' b2] a1 a2 Eq F1 F2 Px Py; cbn in Eq; injection Eq as E1 E2; subst; auto.
  - inversion F2; subst. contradiction.
  - inversion F1; subst. contradiction.
  - inversion F1; inversion F2; subst. eapply IH; eauto.
Qed.
Lemma plain_random seed : seed < 1000000 -> be 32 (seed + 17) <> retry_random.
Proof.
  intros L H. apply (f_equal unbe) in H. unfold retry_random in H. rewrite !unbe_be_small in H; [|reflexivity|].
  - assert (seed + 17 < 0xCF21AD74E59A6111BE1D8C021E65B891C2A211167ABB8C5E079E09E2C8A8339C) as K; [|rewrite H in K; now apply N.lt_irrefl in K]. eapply N.lt_trans; [apply N.add_lt_mono_r; exact L|reflexivity].
  - eapply N.lt_trans; [apply N.add_lt_mono_r; exact L|reflexivity].
Qed.
Lemma plain_keys : makes_keys toy_plain toy_prims P256.
Proof.
  split; [reflexivity|]. intros o i (seed & _ & ->). unfold newKeyShare. change ((P256 =? P256) || _ || _ || _) with true. cbv iota.
  change (kr_curve (o_keys (toy_oracle seed) i)) with (Some (be 32 (1000 * seed + N.of_nat i))). generalize (be 32 (1000 * seed + N.of_nat i)). intros priv. cbv iota.
  exists (toy_public P256 priv), priv. split; [reflexivity|]. unfold toy_public. rewrite len_be. split; [reflexivity|]. intros Z. discriminate Z.
Qed.
Lemma plain_agrees : agrees toy_plain toy_plain toy_prims P256.
Proof.
  intros puba priva pubb privb (o & i & (seed & _ & ->) & H) _. unfold newKeyShare in H. change ((P256 =? P256) || (P256 =? P384) || (P256 =? P521) || (P256 =? X25519)) with true in H. cbv iota in H.
  change (kr_curve (o_keys (toy_oracle seed) i)) with (Some (be 32 (1000 * seed + N.of_nat i))) in H. revert H. generalize (be 32 (1000 * seed + N.of_nat i)). intros priv H. apply Ok_inj in H.
  assert (puba = toy_public P256 priv) as ->. { change (ec_public toy_prims P256 priv) with (toy_public P256 priv) in H. congruence. }
  unfold keyAgreement. change ((P256 =? P256) || _ || _ || _) with true. cbv iota. assert (List.length (toy_public P256 priv) = keyExchangeSize P256) as -> by apply be_length. rewrite Nat.eqb_refl. cbn [negb].
  change (ec_agree toy_prims) with toy_agree. unfold toy_agree. rewrite toy_public_value by (apply curve_size; reflexivity). rewrite three_n. change (1 =? 1) with true. cbv iota. eauto.
Qed.
Lemma ec_compatible g alg h schemes before after : scheme_for alg (KEcdsa g) SigECDSA h -> or_default schemes defaultSignatureSchemes = before ++ alg :: after ->
  Forall (fun a => ~ In a [0x0403; 0x0503; 0x0603]) before -> Forall (fun s => u16_fits s = true) (or_default schemes defaultSignatureSchemes) -> (List.length (or_default schemes defaultSignatureSchemes) <= 1000)%nat ->
  compatible toy_plain toy_plain (ec_env g) (ec_config [toy_cert] schemes) (ec_config [toy_cert] schemes) [].
Proof.
  intros Sf Es Nb Fit Few.
  assert (same_kind (ec_pki g) alg (kp_key toy_cert)) as Sk. { change (In alg [0x0403; 0x0503; 0x0603]). inversion Sf; subst; cbn; auto. }
  split; try reflexivity.
  - split.
    + split; apply N.leb_le; reflexivity.
    + split; [repeat constructor|apply Nat.leb_le; reflexivity].
    + apply Nat.leb_le; reflexivity.
    + split; [exact Fit|exact Few].
    + split; [repeat constructor|apply Nat.leb_le; reflexivity].
    + split; [repeat constructor|apply Nat.leb_le; reflexivity].
  - intros o (seed & _ & ->). exists (be 32 (seed + 17)). split; [reflexivity|]. apply len_be.
  - intros o (seed & L & ->). exists (be 32 (seed + 17)). split; [reflexivity|]. split; [apply len_be|now apply plain_random].
  - exists TLS_AES_128_GCM_SHA256. split; now left.
  - intros s [<-|[<-|[]]] _; discriminate.
  - exists P256. split; now left.
  - intros g' [<-|[]]. exact plain_keys.
  - intros g' [<-|[]] _. split; [exact plain_keys|exact plain_agrees].
  - intros c [<-|[]]. discriminate.
  - exists toy_cert, alg. split; [now left|]. split; [exists toy_name, []; split; [reflexivity|now left]|]. split; [|exact Sk]. change (In alg (or_default schemes defaultSignatureSchemes)). rewrite Es. apply in_or_app. right. now left.
  - intros c alg' [<-|[]] _ (b & a & Eq & Sk' & Fb). change (or_default schemes defaultSignatureSchemes = b ++ alg' :: a) in Eq. rewrite Es in Eq.
    assert (alg = alg') as <- by (eapply (first_unique (fun x => same_kind (ec_pki g) x (kp_key toy_cert))); eauto). split; [|split].
    + exists toy_name, [], SigECDSA, h. split; [reflexivity|]. split; [reflexivity|]. split; [exact Sf|]. intros o d _. exists (toy_name ++ firstn 64 d). split; [reflexivity|]. split; [apply beqb_refl|].
      rewrite len_app. pose proof (firstn_le_length 64 d) as L. unfold len. change (List.length toy_name) with 11%nat. change (list byte) with bytes in *. lia.
    + split; [constructor; [split; [reflexivity|intros Z; discriminate Z]|constructor]|]. intros Z. discriminate Z.
    + intros o leaf rest _ [= <- <-]. exists [[toy_name]]. split; reflexivity || exact I.
Qed.

(** Calls and deliveries of all that is under way. *)
Inductive move := CallClient (seeds : list N) | CallServer (seeds : list N) | Up | Down.
Definition plain_oracles (seeds : list N) : list oracle := map toy_oracle (filter (fun s => s <? 1000000) seeds).
Definition moved (E : env) (m : move) (n : net) : option net :=
  match m with
  | CallClient seeds => match handshake E (List.length seeds) (plain_oracles seeds) (n_client n) with (c', Ok _) | (c', Err _) => Some (client_calls n c') | _ => None end
  | CallServer seeds => match handshake E (List.length seeds) (plain_oracles seeds) (n_server n) with (c', Ok _) | (c', Err _) => Some (server_calls n c') | _ => None end
  | Up => Some (mkNet (n_client n) (arrives (n_server n) [RBytes (n_up n)]) [] (n_down n))
  | Down => Some (mkNet (arrives (n_client n) [RBytes (n_down n)]) (n_server n) (n_up n) [])
  end.
Fixpoint moves (E : env) (ms : list move) (n : net) : option net :=
  match ms with [] => Some n | m :: ms => match moved E m n with Some n' => moves E ms n' | None => None end end.
Lemma plain_oracles_ok seeds : Forall toy_plain (plain_oracles seeds).
Proof. apply Forall_forall. intros o H. apply in_map_iff in H. destruct H as (s & <- & H). apply filter_In in H. destruct H as [_ H]. exists s. split; [now apply N.ltb_lt|reflexivity]. Qed.
Lemma moves_play E ccfg scfg cpsks spsks ms : forall ce se t n n', play toy_plain toy_plain E ccfg scfg cpsks spsks ce se t n -> moves E ms n = Some n' ->
  exists ce' se' t', play toy_plain toy_plain E ccfg scfg cpsks spsks ce' se' t' n'.
Proof.
  induction ms as [|m ms IH]; intros ce se t n n' H M; cbn [moves] in M; [injection M as <-; eauto|].
  destruct (moved E m n) as [n1|] eqn:Em; [|discriminate]. destruct m; cbn [moved] in Em.
  - destruct (handshake _ _ _ _) as [c' [[]|e| |]] eqn:Eh; try discriminate; injection Em as <-; eapply IH; try exact M; (eapply pl_client_handshake; [exact H|apply plain_oracles_ok|exact Eh|left; exact I]).
  - destruct (handshake _ _ _ _) as [c' [[]|e| |]] eqn:Eh; try discriminate; injection Em as <-; eapply IH; try exact M; (eapply pl_server_handshake; [exact H|apply plain_oracles_ok|exact Eh|left; exact I]).
  - injection Em as <-. eapply IH; [|exact M]. eapply pl_deliver_server; [exact H|now rewrite app_nil_r].
  - injection Em as <-. eapply IH; [|exact M]. eapply pl_deliver_client; [exact H|now rewrite app_nil_r].
Qed.
Definition fresh_net (cfg : config) : net := mkNet (newConn cfg [] true []) (newConn cfg [] false []) [] [].
Definition plain_moves : list move :=
  let s k := [k; k+1; k+2; k+3; k+4; k+5; k+6; k+7; k+8; k+9; k+10; k+11] in
  [CallClient (s 100); Up; CallServer (s 200); CallServer (s 250); CallServer (s 300); Down; CallClient (s 300); CallClient (s 400); CallClient (s 500); CallClient (s 550);
   CallClient (s 600); CallClient (s 650); CallClient (s 700); CallClient (s 750); Up; CallServer (s 800); CallServer (s 850); CallServer (s 900); Down].
Definition both_complete (o : option net) : bool := match o with Some n => c_complete (n_client n) && c_complete (n_server n) | None => false end.
Lemma moves_complete E cfg ms : both_complete (moves E ms (fresh_net cfg)) = true ->
  exists ce se t n, play toy_plain toy_plain E cfg cfg [] [] ce se t n /\ c_complete (n_client n) = true /\ c_complete (n_server n) = true.
Proof.
  destruct (moves E ms (fresh_net cfg)) as [n|] eqn:M; cbn [both_complete]; [|discriminate]. intros H. apply andb_true_iff in H. destruct H as [A B].
  destruct (moves_play _ _ _ _ _ ms _ _ _ _ n (pl_new _ _ E cfg cfg [] []) M) as (ce & se & t & P). eauto 8.
Qed.
(** The default lists, one ECDSA certificate: the conditions hold, and calls at both ends come to the end of the handshake. *)
Example C67_example :
  let E := ec_env P256 in let cfg := ec_config [toy_cert] [] in
  joint_ok toy_plain toy_plain E cfg cfg [] [] /\ compatible toy_plain toy_plain E cfg cfg [] /\
  exists ce se t n, play toy_plain toy_plain E cfg cfg [] [] ce se t n /\ c_complete (n_client n) = true /\ c_complete (n_server n) = true.
Proof.
  cbv zeta. split; [apply ec_joint|]. split; [|apply (moves_complete _ _ plain_moves); nf].
  apply (ec_compatible P256 0x0403 SHA256 [] [0x0804; 0x0805; 0x0806] [0x0503; 0x0603]); [constructor|reflexivity| |repeat constructor|apply Nat.leb_le; reflexivity].
    repeat constructor; intros [Z|[Z|[Z|[]]]]; discriminate Z.
Qed.

(** ** What goes wrong outside these conditions *)

(** The server fails, at some point of some use of two connections, with an alert that is not AlertWouldBlock. *)
Definition can_fail (Qc Qs : oracle -> Prop) (E : env) (ccfg scfg : config) : Prop :=
  exists ce se t n fuel os a, play Qc Qs E ccfg scfg [] [] ce se t n /\ Forall Qs os /\ snd (handshake E fuel os (n_server n)) = Err (EAlert a) /\ EAlert a <> WouldBlock.
Definition server_alert (E : env) (ms : list move) (cfg : config) : option N :=
  match moves E ms (fresh_net cfg) with
  | Some n => match snd (handshake E 12 (plain_oracles [1; 2; 3; 4; 5; 6; 7; 8; 9; 10; 11; 12]) (n_server n)) with Err (EAlert a) => Some a | _ => None end
  | None => None
  end.
Lemma alert_fails E ms cfg a : server_alert E ms cfg = Some a -> EAlert a <> WouldBlock -> can_fail toy_plain toy_plain E cfg cfg.
Proof.
  unfold server_alert. destruct (moves E ms (fresh_net cfg)) as [n|] eqn:M; [|discriminate]. destruct (moves_play _ _ _ _ _ ms _ _ _ _ n (pl_new _ _ E cfg cfg [] []) M) as (ce & se & t & P). intros H N.
  exists ce, se, t, n, 12%nat, (plain_oracles [1; 2; 3; 4; 5; 6; 7; 8; 9; 10; 11; 12]), a. split; [exact P|]. split; [apply plain_oracles_ok|]. split; [|exact N].
  destruct (snd (handshake E 12 _ (n_server n))) as [|[]| |]; try discriminate. now injection H as ->.
Qed.
(** Offering a further signature scheme makes a handshake fail that does not fail without it: the server takes the first scheme of the kind of its key, though the key is not on the curve of the scheme (crypto.go:184-194),
    and does not come to the second. *)
Theorem C67_more_schemes_refuted : exists E certs few more, incl few more /\
  joint_ok toy_plain toy_plain E (ec_config certs few) (ec_config certs few) [] [] /\ compatible toy_plain toy_plain E (ec_config certs few) (ec_config certs few) [] /\
  joint_ok toy_plain toy_plain E (ec_config certs more) (ec_config certs more) [] [] /\ can_fail toy_plain toy_plain E (ec_config certs more) (ec_config certs more).
Proof.
  exists (ec_env P384), [toy_cert], [0x0503], [0x0403; 0x0503]. split; [intros x [<-|[]]; right; now left|]. split; [apply ec_joint|]. split.
  - apply (ec_compatible P384 0x0503 SHA384 [0x0503] [] []); [constructor|reflexivity|constructor|repeat constructor|apply Nat.leb_le; reflexivity].
  - split; [apply ec_joint|]. apply (alert_fails _ (firstn 3 plain_moves) _ 80); [nf|discriminate].
Qed.
Print Assumptions C67_more_schemes_refuted.
(** So does a chain of certificates of more than a record: a message that is sent under keys is not cut to leave room for the tag. *)
Theorem C67_longer_chain_refuted : exists E (c : keypair) rest,
  joint_ok toy_plain toy_plain E (ec_config [c] []) (ec_config [c] []) [] [] /\ compatible toy_plain toy_plain E (ec_config [c] []) (ec_config [c] []) [] /\
  (let d := mkKp (kp_chain c ++ rest) (kp_key c) in joint_ok toy_plain toy_plain E (ec_config [d] []) (ec_config [d] []) [] [] /\ can_fail toy_plain toy_plain E (ec_config [d] []) (ec_config [d] [])).
Proof.
  exists (ec_env P256), toy_cert, [repeat Byte.x00 (N.to_nat 17000)]. split; [apply ec_joint|]. split.
  - apply (ec_compatible P256 0x0403 SHA256 [] [0x0804; 0x0805; 0x0806] [0x0503; 0x0603]); [constructor|reflexivity| |repeat constructor|apply Nat.leb_le; reflexivity].
    repeat constructor; intros [Z|[Z|[Z|[]]]]; discriminate Z.
  - cbv zeta. split; [apply ec_joint|]. apply (alert_fails _ (firstn 3 plain_moves) _ 80); [nf|discriminate].
Qed.
Print Assumptions C67_longer_chain_refuted.
