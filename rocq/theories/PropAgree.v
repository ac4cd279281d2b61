(** What two ends that complete a handshake with each other share (property C35). *)
From Verif Require Import Base Syntax Frame Record RecordSpec Handshake Crypto CryptoSpec PropCrypto Messages Pki Negotiation Machine Cookie Client Server Conn ConnSpec RunSpec RunProofs SessionSpec ClientSession ServerSession Toy PropTrace PropConn PropSession PropServer AgreeSpec AgreeProofs KeyProofs.

Lemma ends_agree Qc Qs Ec Es ccfg scfg cpsks spsks cin sin cevs sevs c s :
  v_prims Ec = v_prims Es -> mac_sized (v_prims Ec) -> curves_agree Qc Qs (v_prims Ec) -> shared_psk ccfg scfg cpsks spsks -> inverts Qs ->
  cf_extensionHandler ccfg = None -> cf_extensionHandler scfg = None -> cf_useDTLS ccfg = cf_useDTLS scfg -> NoDup (cf_groups (cfg_init ccfg)) ->
  (cf_requireCookie scfg = true -> cf_useDTLS scfg = false) ->
  steady Qc Ec (newConn ccfg cpsks true cin) cevs c -> c_complete c = true -> steady Qs Es (newConn scfg spsks false sin) sevs s -> c_complete s = true ->
  delivered (sent cevs) (received sevs) -> delivered (sent sevs) (received cevs) ->
  exists k k', same_session k (c_state c) /\ same_session k' (c_state s) /\ agree (v_prims Ec) k k'.
Proof.
  intros EP M Cu Sp Iv Nc Ns Kd Nd Tc Sc Cc Ss Cs Dc Ds.
  destruct (client_completed _ _ _ _ M _ _ _ Sc Cc) as (k & Rc & Ec1). rewrite EP in M. destruct (server_completed _ _ _ _ M _ _ _ Ss Cs) as (k' & Rs & Es1). rewrite <- EP in Rs.
  exists k, k'. split; [exact Ec1|]. split; [exact Es1|]. exact (runs_agree _ _ _ _ _ _ _ _ _ Nc Ns Kd Nd Cu Sp Iv Tc _ _ _ _ Rc Rs Dc Ds).
Qed.
Lemma agree_secrets P k k' : agree P k k' -> sc_cts k = sc_cts k' /\ sc_sts k = sc_sts k'.
Proof. intros ((early & dhe & t1 & t2 & (A1 & A2 & _) & (B1 & B2 & _)) & _). split; congruence. Qed.
Lemma uses_same Ec Es s r r' sec : v_prims Ec = v_prims Es -> v_gcm Ec = v_gcm Es -> uses_key Ec s r sec -> uses_key Es s r' sec -> same_key r r'.
Proof. intros EP EG [A B] [C D]. rewrite <- EP in C, D. rewrite <- EG in C. eexists _, _. split; [exact A|]. split; [exact C|]. split; [exact B|exact D]. Qed.
Lemma fresh_agree Qc Qs Ec Es ccfg scfg cpsks spsks cin sin cevs sevs c s :
  v_prims Ec = v_prims Es -> v_gcm Ec = v_gcm Es -> mac_sized (v_prims Ec) -> curves_agree Qc Qs (v_prims Ec) -> shared_psk ccfg scfg cpsks spsks -> inverts Qs ->
  cf_extensionHandler ccfg = None -> cf_extensionHandler scfg = None -> cf_useDTLS ccfg = cf_useDTLS scfg -> NoDup (cf_groups (cfg_init ccfg)) ->
  (cf_requireCookie scfg = true -> cf_useDTLS scfg = false) ->
  fresh_session Qc Ec (newConn ccfg cpsks true cin) cevs c -> fresh_session Qs Es (newConn scfg spsks false sin) sevs s ->
  delivered (sent cevs) (received sevs) -> delivered (sent sevs) (received cevs) ->
  let k := c_state c in
  agree (v_prims Ec) k (c_state s) /\
  uses_key Ec (sc_suite k) (l_core (c_out c)) (sc_cts k) /\ uses_key Ec (sc_suite k) (l_core (c_in c)) (sc_sts k) /\
  same_key (l_core (c_out c)) (l_core (c_in s)) /\ same_key (l_core (c_out s)) (l_core (c_in c)).
Proof.
  intros EP EG M Cu Sp Iv Nc Ns Kd Nd Tc Fc Fs Dc Ds. cbv zeta.
  apply fresh_ok in Fc. destruct Fc as (Sc & _ & k & Hc & <- & Kc). apply fresh_ok in Fs. destruct Fs as (Ss & _ & k' & Hs & <- & Ks).
  pose proof (client_connected _ _ _ _ M _ _ _ _ Sc Hc) as Rc. rewrite EP in M. pose proof (server_connected _ _ _ _ M _ _ _ _ Ss Hs) as Rs. rewrite <- EP in Rs.
  pose proof (runs_agree _ _ _ _ _ _ _ _ _ Nc Ns Kd Nd Cu Sp Iv Tc _ _ _ _ Rc Rs Dc Ds) as A. split; [exact A|].
  destruct (agree_secrets _ _ _ A) as [S1 S2]. destruct A as (_ & Su & _ & _ & _ & _ & _ & C1 & C2). rewrite C1 in Kc. rewrite C2 in Ks. rewrite <- Su, <- S1, <- S2 in Ks.
  destruct Kc as [Ko Ki]. destruct Ks as [Ko' Ki']. split; [exact Ko|]. split; [exact Ki|]. split; [exact (uses_same _ _ _ _ _ _ EP EG Ko Ki')|].
  apply (uses_same Es Ec (sc_suite (c_state c)) _ _ (sc_sts (c_state c))); [now symmetry|now symmetry|exact Ko'|exact Ki].
Qed.
(** ** C35 *)

(** A client and a server that complete, each having received what the other sent, have sessions from one key schedule
    (so the same master, traffic, exporter and resumption secrets) and the same suite, PSK use, key exchange, early data
    use and protocol. *)
Theorem C35_agree : forall Qc Qs Ec Es ccfg scfg cpsks spsks cin sin cevs sevs c s,
  v_prims Ec = v_prims Es -> mac_sized (v_prims Ec) -> curves_agree Qc Qs (v_prims Ec) -> shared_psk ccfg scfg cpsks spsks -> inverts Qs ->
  cf_extensionHandler ccfg = None -> cf_extensionHandler scfg = None -> cf_useDTLS ccfg = cf_useDTLS scfg -> NoDup (cf_groups (cfg_init ccfg)) ->
  (cf_requireCookie scfg = true -> cf_useDTLS scfg = false) ->
  steady Qc Ec (newConn ccfg cpsks true cin) cevs c -> c_complete c = true -> steady Qs Es (newConn scfg spsks false sin) sevs s -> c_complete s = true ->
  delivered (sent cevs) (received sevs) -> delivered (sent sevs) (received cevs) ->
  exists k k', same_session k (c_state c) /\ same_session k' (c_state s) /\ agree (v_prims Ec) k k'.
Proof. exact ends_agree. Qed.
Print Assumptions C35_agree.

(** Before keys are updated, these are the sessions the ends have, and what each end writes with is what the other reads
    with: the keys of the application traffic secrets. *)
Theorem C35_keys : forall Qc Qs Ec Es ccfg scfg cpsks spsks cin sin cevs sevs c s,
  v_prims Ec = v_prims Es -> v_gcm Ec = v_gcm Es -> mac_sized (v_prims Ec) -> curves_agree Qc Qs (v_prims Ec) -> shared_psk ccfg scfg cpsks spsks -> inverts Qs ->
  cf_extensionHandler ccfg = None -> cf_extensionHandler scfg = None -> cf_useDTLS ccfg = cf_useDTLS scfg -> NoDup (cf_groups (cfg_init ccfg)) ->
  (cf_requireCookie scfg = true -> cf_useDTLS scfg = false) ->
  fresh_session Qc Ec (newConn ccfg cpsks true cin) cevs c -> fresh_session Qs Es (newConn scfg spsks false sin) sevs s ->
  delivered (sent cevs) (received sevs) -> delivered (sent sevs) (received cevs) ->
  let k := c_state c in
  agree (v_prims Ec) k (c_state s) /\
  uses_key Ec (sc_suite k) (l_core (c_out c)) (sc_cts k) /\ uses_key Ec (sc_suite k) (l_core (c_in c)) (sc_sts k) /\
  same_key (l_core (c_out c)) (l_core (c_in s)) /\ same_key (l_core (c_out s)) (l_core (c_in c)).
Proof. exact fresh_agree. Qed.
Print Assumptions C35_keys.

(** The conditions hold of the toy environment. *)
Lemma three_n n : (3 * n + 1) mod 3 = 1.
Proof. rewrite N.add_comm, N.mul_comm, N.mod_add by discriminate. reflexivity. Qed.
Lemma curve_size g : (g =? P256) || (g =? P384) || (g =? P521) || (g =? X25519) = true -> (32 <= keyExchangeSize g)%nat.
Proof.
  intros Gc. unfold keyExchangeSize. destruct (g =? X25519); [lia|]. destruct (g =? P256); [lia|]. destruct (g =? P384); [lia|]. cbn [orb] in Gc. rewrite orb_false_r in Gc. rewrite Gc. lia.
Qed.
Lemma toy_public_value g n : (32 <= keyExchangeSize g)%nat -> unbe (toy_public g n) = 3 * (unbe n mod 2 ^ 64) + 1.
Proof.
  intros L. apply unbe_be_small. pose proof (N.mod_upper_bound (unbe n) (2 ^ 64) ltac:(discriminate)) as B. apply N.lt_le_trans with (256 ^ 32).
  - apply N.lt_trans with (3 * 2 ^ 64 + 1); [|reflexivity]. apply N.add_lt_mono_r. apply N.mul_lt_mono_pos_l; [reflexivity|exact B].
  - apply N.pow_le_mono_r; [discriminate|]. lia.
Qed.
Lemma no_prime g : ~ In g ffdhe_groups -> primeFromNamedGroup g = None.
Proof.
  unfold primeFromNamedGroup, ffdhe_groups. intros N. 
  repeat match goal with |- (if ?a =? ?b then _ else _) = _ => destruct (N.eqb_spec a b) as [->|_]; [exfalso; apply N; cbn; tauto|] end. reflexivity.
Qed.
Lemma toy_curves : curves_agree toy_like toy_like toy_prims.
Proof.
  intros g puba priva pubb privb z Ng (o & i & [sa ->] & Na) (o' & i' & [sb ->] & Nb) K. unfold newKeyShare in Na, Nb. unfold keyAgreement in *. rewrite (no_prime g Ng) in *.
  destruct ((g =? P256) || (g =? P384) || (g =? P521) || (g =? X25519)) eqn:Gc; [|discriminate]. apply curve_size in Gc.
  change (kr_curve (o_keys (toy_oracle sa) i)) with (Some (be 32 (1000 * sa + N.of_nat i))) in Na. change (kr_curve (o_keys (toy_oracle sb) i')) with (Some (be 32 (1000 * sb + N.of_nat i'))) in Nb.
  apply Ok_inj in Na, Nb. revert Na Nb. generalize (be 32 (1000 * sa + N.of_nat i)) (be 32 (1000 * sb + N.of_nat i')). intros pa pb Na Nb. 
  change (ec_public toy_prims) with toy_public in *. change (ec_agree toy_prims) with toy_agree in *.
  assert (puba = toy_public g pa /\ priva = pa) as [-> ->] by (split; congruence). assert (pubb = toy_public g pb /\ privb = pb) as [-> ->] by (split; congruence). clear Na Nb.
  assert (forall n, List.length (toy_public g n) = keyExchangeSize g) as Ls by (intros n; apply be_length).
  rewrite Ls, Nat.eqb_refl in *. cbn [negb] in *. unfold toy_agree in *. rewrite !toy_public_value in * by exact Gc. rewrite !three_n in *. change (1 =? 1) with true in *. cbv iota in *.
  rewrite !N.add_sub in *. rewrite N.mul_shuffle0. exact K.
Qed.

(** Handshakes with certificates, with a HelloRetryRequest, and with a PSK and early data: what each end received is what
    the other sent. *)
Definition same_messageb (m m' : hmsg) : bool := beqb (hm_marshal m) (hm_marshal m') && beqb (hm_body m) (hm_body m').
Fixpoint deliveredb (l l' : list hmsg) : bool :=
  match l, l' with _, [] => true | m :: l, m' :: l' => same_messageb m m' && deliveredb l l' | [], _ :: _ => false end.
Lemma deliveredb_ok l : forall l', deliveredb l l' = true -> delivered l l'.
Proof.
  induction l as [|m l IH]; intros [|m' l'] D; cbn [deliveredb] in D; try discriminate; [exists [], []; auto|exists [], (m :: l); auto|].
  apply andb_true_iff in D. destruct D as [S D]. apply andb_true_iff in S. destruct S as [S1 S2]. apply beqb_eq in S1, S2. destruct (IH _ D) as (a & r & -> & F).
  exists (m :: a), r. split; [reflexivity|]. constructor; [split; assumption|exact F].
Qed.
Lemma full_delivered : delivered (sent (fst full_events)) (received (snd full_events)) /\ delivered (sent (snd full_events)) (received (fst full_events)).
Proof. split; apply deliveredb_ok; vm_compute; reflexivity. Qed.
Lemma hrr_delivered : delivered (sent (fst hrr_events)) (received (snd hrr_events)) /\ delivered (sent (snd hrr_events)) (received (fst hrr_events)).
Proof. split; apply deliveredb_ok; vm_compute; reflexivity. Qed.
Lemma psk_delivered : delivered (sent (fst psk_events)) (received (snd psk_events)) /\ delivered (sent (snd psk_events)) (received (fst psk_events)).
Proof. split; apply deliveredb_ok; vm_compute; reflexivity. Qed.
Lemma toy_groups : NoDup [P256].
Proof. constructor; [intros []|constructor]. Qed.
Lemma toy_shared : shared_psk psk_config psk_config client_psks server_psks.
Proof. intros key key' H H'. vm_compute in H. injection H as <-. vm_compute in H'. injection H' as <-. reflexivity. Qed.
Example C35_full : curves_agree toy_like toy_like (v_prims toy_env) /\ inverts toy_like /\ NoDup (cf_groups (cfg_init toy_config)) /\ c_complete toy_client = true /\ c_complete toy_server = true /\
  steady toy_like toy_env (newConn toy_config [] true []) (fst full_events) toy_client /\ steady toy_like toy_env (newConn toy_config [] false []) (snd full_events) toy_server /\
  delivered (sent (fst full_events)) (received (snd full_events)) /\ delivered (sent (snd full_events)) (received (fst full_events)).
Proof. refine (conj toy_curves (conj toy_inverts (conj toy_groups (conj full_complete (conj _ (conj (proj1 full_steady) (conj (proj2 full_steady) full_delivered))))))). vm_compute. reflexivity. Qed.
Example C35_hrr : c_complete (fst (fst hrr_run)) = true /\ c_complete (snd (fst hrr_run)) = true /\
  steady toy_like toy_env (newConn toy_config [] true []) (fst hrr_events) (fst (fst hrr_run)) /\ steady toy_like toy_env (newConn cookie_config [] false []) (snd hrr_events) (snd (fst hrr_run)) /\
  delivered (sent (fst hrr_events)) (received (snd hrr_events)) /\ delivered (sent (snd hrr_events)) (received (fst hrr_events)).
Proof. refine (conj hrr_complete (conj _ (conj (proj1 hrr_steady) (conj (proj2 hrr_steady) hrr_delivered)))). vm_compute. reflexivity. Qed.
Example C35_psk : shared_psk psk_config psk_config client_psks server_psks /\ (c_complete (fst (fst psk_run)), c_complete (snd (fst psk_run))) = (true, true) /\
  steady toy_like toy_env (newConn psk_config client_psks true []) (fst psk_events) (fst (fst psk_run)) /\ steady toy_like toy_env (newConn psk_config server_psks false []) (snd psk_events) (snd (fst psk_run)) /\
  delivered (sent (fst psk_events)) (received (snd psk_events)) /\ delivered (sent (snd psk_events)) (received (fst psk_events)).
Proof. refine (conj toy_shared (conj _ (conj (proj1 psk_steady) (conj (proj2 psk_steady) psk_delivered)))). vm_compute. reflexivity. Qed.

(** The same runs have not updated keys. *)
Definition on_way (c0 : conn) (evs : list event) (c : conn) : Prop :=
  (steady toy_like toy_env c0 evs c /\ c_complete c = false) \/ fresh_session toy_like toy_env c0 evs c.
Lemma on_way_handshake seed cfg psks client input evs c c' r : on_way (newConn cfg psks client input) evs c -> handshake toy_env 20 (toy_oracles seed 2) c = (c', r) -> fineb r = true ->
  on_way (newConn cfg psks client input) (evs ++ handshake_events toy_env 20 (toy_oracles seed 2) c) c'.
Proof.
  intros [[S C]|F] H Fi.
  - destruct (c_complete c') eqn:C'; [right; eapply fs_complete; eauto using toy_oracles_like, fineb_ok|left; split; [|exact C']].
    eapply steady_handshake; eauto using toy_oracles_like, fineb_ok.
  - right. pose proof (fresh_ok _ _ _ _ _ _ _ _ F) as (_ & Cc & _). unfold handshake_events. rewrite Cc, app_nil_r. change c' with (fst (c', r)). rewrite <- H. now apply fs_handshake.
Qed.
Lemma on_way_input c0 evs c d : on_way c0 evs c -> on_way c0 evs (arrives c d).
Proof. intros [[S C]|F]; [left; split; [eapply steady_other; [exact S|apply ou_input]|exact C]|right; now apply fs_input]. Qed.
Lemma on_way_output c0 evs c : on_way c0 evs c -> on_way c0 evs (taken c).
Proof. intros [[S C]|F]; [left; split; [eapply steady_other; [exact S|apply ou_output]|exact C]|right; now apply fs_output]. Qed.
Lemma on_way_joint n cc sc cp sp ci si : forall seed p ea eb,
  forallb (fun r => fineb (fst r) && fineb (snd r)) (snd (joint n seed p)) = true ->
  on_way (newConn cc cp true ci) ea (fst p) -> on_way (newConn sc sp false si) eb (snd p) ->
  on_way (newConn cc cp true ci) (ea ++ fst (joint_events n seed p)) (fst (fst (joint n seed p))) /\
  on_way (newConn sc sp false si) (eb ++ snd (joint_events n seed p)) (snd (fst (joint n seed p))).
Proof.
  induction n as [|n IH]; intros seed [a b] ea eb F Sa Sb.
  { cbn. rewrite !app_nil_r. split; assumption. }
  cbn [joint joint_events] in *. unfold both_events. unfold both, transfer in *. cbn [fst snd] in Sa, Sb.
  destruct (handshake toy_env 20 (toy_oracles seed 2) a) as [a1 ra] eqn:A. cbn [fst snd] in *.
  set (b1 := arrives b _) in *. destruct (handshake toy_env 20 (toy_oracles (seed + 500) 2) b1) as [b2 rb] eqn:B.
  set (a2 := arrives (taken a1) _) in *. cbn [fst snd] in *.
  specialize (IH (seed + 10) (a2, taken b2) (ea ++ handshake_events toy_env 20 (toy_oracles seed 2) a) (eb ++ handshake_events toy_env 20 (toy_oracles (seed + 500) 2) b1)).
  destruct (joint n (seed + 10) (a2, taken b2)) as [[a3 b3] rs] eqn:J. cbn [fst snd forallb] in *.
  apply andb_prop in F. destruct F as [F1 F2]. apply andb_prop in F1. destruct F1 as [Fa Fb].
  rewrite <- !app_assoc in IH. apply IH; [exact F2| |].
  - apply on_way_input, on_way_output. eapply on_way_handshake; eauto.
  - apply on_way_output. eapply on_way_handshake; [apply on_way_input; exact Sb|exact B|exact Fb].
Qed.
Lemma fresh_pair n seed cc sc cp sp : forallb (fun r => fineb (fst r) && fineb (snd r)) (snd (joint n seed (pair_of cc sc cp sp))) = true ->
  c_complete (fst (fst (joint n seed (pair_of cc sc cp sp)))) = true -> c_complete (snd (fst (joint n seed (pair_of cc sc cp sp)))) = true ->
  fresh_session toy_like toy_env (newConn cc cp true []) (fst (joint_events n seed (pair_of cc sc cp sp))) (fst (fst (joint n seed (pair_of cc sc cp sp)))) /\
  fresh_session toy_like toy_env (newConn sc sp false []) (snd (joint_events n seed (pair_of cc sc cp sp))) (snd (fst (joint n seed (pair_of cc sc cp sp)))).
Proof.
  intros F C1 C2. destruct (on_way_joint n cc sc cp sp [] [] seed (pair_of cc sc cp sp) [] [] F) as [A B].
  - left. split; [constructor|reflexivity].
  - left. split; [constructor|reflexivity].
  - split; [destruct A as [[_ A]|A]; [|exact A]|destruct B as [[_ B]|B]; [|exact B]]; exfalso; [rewrite C1 in A|rewrite C2 in B]; discriminate.
Qed.
Lemma full_complete1 : c_complete (fst (fst (joint 12 1 (pair_of toy_config toy_config [] [])))) = true.
Proof. vm_compute. reflexivity. Qed.
Lemma full_complete2 : c_complete (snd (fst (joint 12 1 (pair_of toy_config toy_config [] [])))) = true.
Proof. vm_compute. reflexivity. Qed.
Lemma psk_complete1 : c_complete (fst (fst (joint 12 1 (pair_of psk_config psk_config client_psks server_psks)))) = true.
Proof. vm_compute. reflexivity. Qed.
Lemma psk_complete2 : c_complete (snd (fst (joint 12 1 (pair_of psk_config psk_config client_psks server_psks)))) = true.
Proof. vm_compute. reflexivity. Qed.
Example C35_fresh_full : fresh_session toy_like toy_env (newConn toy_config [] true []) (fst full_events) toy_client /\ fresh_session toy_like toy_env (newConn toy_config [] false []) (snd full_events) toy_server.
Proof. unfold toy_client, toy_server, full_events, full_run. exact (fresh_pair 12 1 toy_config toy_config [] [] full_fine full_complete1 full_complete2). Qed.
Example C35_fresh_psk : fresh_session toy_like toy_env (newConn psk_config client_psks true []) (fst psk_events) (fst (fst psk_run)) /\
  fresh_session toy_like toy_env (newConn psk_config server_psks false []) (snd psk_events) (snd (fst psk_run)).
Proof. unfold psk_events, psk_run. exact (fresh_pair 12 1 psk_config psk_config client_psks server_psks psk_fine psk_complete1 psk_complete2). Qed.
