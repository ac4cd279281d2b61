(** What compatible ends have gone through, in terms of the messages they have exchanged. *)
From Verif Require Import Base Syntax Frame FrameProofs Record RecordSpec RecordProofs RecordProofs2 HandshakeProofs Timer Handshake DtlsProofs Crypto CryptoSpec CryptoProofs Messages MessageProofs MessageProofs3 Pki Negotiation NegotiationProofs Machine MachineProofs Cookie Client Server StepProofs Conn ConnSpec ConnProofs EarlyProofs RunSpec RunProofs TraceProofs SessionSpec SessionProofs HelloProofs ClientRun ClientSession ServerRun ServerSession AgreeSpec AgreeProofs JointSpec ChannelSpec ChannelProofs WireProofs StillProofs PipeProofs MadeProofs TurnProofs HalfProofs JointHello TicketProofs JointProofs CompleteSpec ForwardProofs CompleteProofs.
Import FrameProofs.
Local Notation kept := RunProofs.kept.

Section Run.
Variables (Qc Qs : oracle -> Prop) (E : env) (ccfg scfg : config) (cpsks spsks : cache).
Notation P := (v_prims E).
Notation X := (v_pki E).
Hypothesis cp : compatible Qc Qs E ccfg scfg cpsks.
Hypothesis msized : mac_sized P.
Hypothesis chandler : cf_extensionHandler ccfg = None.
Hypothesis shandler : cf_extensionHandler scfg = None.
Hypothesis ctls : cf_useDTLS ccfg = false.
Hypothesis stls : cf_useDTLS scfg = false.
Hypothesis curves : curves_agree Qc Qs P.
Notation cc := (cfg_init ccfg).
Notation sc := (cfg_init scfg).
Notation hello_msg := (hello_msg Qc E ccfg).
Notation flight := (flight Qc Qs E ccfg scfg).
Notation tracks := (tracks Qc E ccfg).
Notation goes := (goes Qc E ccfg).
Notation chosen := (chosen Qc Qs E ccfg scfg).

(** ** Messages that are alike *)

Lemma says_same m m' b : same_message m m' -> says m b -> says m' b.
Proof. intros S [A B]. split; [rewrite <- (same_type _ _ S); exact A|rewrite <- (proj2 S); exact B]. Qed.
Lemma hello_same m m' random shares : same_message m m' -> hello_msg m random shares -> hello_msg m' random shares.
Proof. intros S [A B]. split; [exact (says_same _ _ _ S A)|exact B]. Qed.
Lemma flight_same ps hello hello' ms ms' : same_message hello hello' -> Forall2 same_message ms ms' -> flight ps hello ms -> flight ps hello' ms'.
Proof.
  intros Sh F (random & g & pub & suite & proto & cert & scheme & sg & leaf & rest & m1 & m2 & m3 & m4 & m5 & -> & (S1 & H1) & (S2 & H2) & (S3 & H3) & (S4 & H4 & H5) & Fl).
  assert (Forall (fun m => len (hm_body m) <= 16363) ms') as Fl'.
  { clear -F Fl. induction F as [|m m' l l' Sm F IH]; [constructor|]. inversion Fl; subst. constructor; [rewrite <- (proj2 Sm); assumption|auto]. }
  inversion F as [|? n1 ? l1 Q1 F1]; subst. inversion F1 as [|? n2 ? l2 Q2 F2]; subst. inversion F2 as [|? n3 ? l3 Q3 F3]; subst. inversion F3 as [|? n4 ? l4 Q4 F4]; subst. inversion F4 as [|? n5 ? l5 Q5 F5]; subst. inversion F5; subst.
  exists random, g, pub, suite, proto, cert, scheme, sg, leaf, rest, n1, n2, n3, n4, n5. split; [reflexivity|]. split; [split; [exact (says_same _ _ _ Q1 S1)|exact H1]|]. split; [split; [exact (says_same _ _ _ Q2 S2)|exact H2]|].
  split; [split; [exact (says_same _ _ _ Q3 S3)|exact H3]|]. split; [|exact Fl']. split; [exact (says_same _ _ _ Q4 S4)|]. split; [exact H4|].
  rewrite <- H5. unfold marshals. cbn [map concat]. now rewrite (proj1 Sh), (proj1 Q1), (proj1 Q2), (proj1 Q3).
Qed.

(** ** The client *)

Lemma step_goes ps hello shm eem certm cvm finm o w s n : flight ps hello [shm; eem; certm; cvm; finm] -> Qc o -> tracks ps hello shm eem certm cvm s w n -> (n < 4)%nat ->
  goes ps hello shm eem certm cvm (step_of P X o w s (nth n [shm; eem; certm; cvm; finm] hello)) (S n) (sh_acts E ps) /\ reads s.
Proof.
  intros Fl Qo T L.
  assert (forall r m, (2 <= m)%nat -> goes ps hello shm eem certm cvm r m (fun _ => []) -> goes ps hello shm eem certm cvm r m (sh_acts E ps)) as W.
  { intros [w' [[[s' a] rt]|e| |]] m Lm G; try exact G. destruct G as (-> & Tk & ->). split; [reflexivity|]. split; [exact Tk|]. destruct s'; try reflexivity. destruct Tk as (_ & -> & _). lia. }
  destruct s; try (destruct T as [_ T]; contradiction); destruct (proj2 T) as [-> _]; (split; [|exact I]); cbn [step_of nth].
  - now apply (wait_sh_goes Qc Qs E ccfg scfg cpsks cp chandler curves ps hello shm eem certm cvm finm Fl o).
  - apply W; [lia|]. now apply (wait_ee_goes Qc Qs E ccfg scfg cpsks cp chandler ps hello shm eem certm cvm finm Fl o).
  - apply W; [lia|]. now apply (wait_cert_goes Qc Qs E ccfg scfg ps hello shm eem certm cvm finm Fl).
  - apply W; [lia|]. now apply (wait_cv_goes Qc Qs E ccfg scfg ps hello shm eem certm cvm finm Fl o).
  - lia.
Qed.
Lemma next_reads o fuel w s w' s' acts retry : reads s -> next P X o fuel w s = (w', Ok (s', acts, retry)) ->
  exists w1 hm, hr_read fuel o w = (w1, Ok hm) /\ read_by fuel o w s = [Received hm] /\ step_of P X o w1 s hm = (w', Ok (s', acts, retry)).
Proof.
  intros R N. rewrite next_step in N by exact R. destruct (hr_read fuel o w) as [w1 [hm|e| |]] eqn:H; cbn [sbind] in N; try discriminate. exists w1, hm. split; [reflexivity|]. split; [|exact N].
  destruct s; try contradiction; unfold read_by, got; rewrite H; reflexivity.
Qed.

Lemma client_history client evs s w : path Qc E ccfg cpsks client evs s w -> client = true -> exists hello tl random shares, evs = Sent hello :: tl /\ hello_msg hello random shares /\
  (not_connected s ->
   (received tl = [] -> tl = [] /\ forall ps a b c d, tracks ps hello a b c d s w 0) /\
   forall ps shm eem certm cvm finm rest, flight ps hello [shm; eem; certm; cvm; finm] -> rest <> [] -> [shm; eem; certm; cvm; finm] = received tl ++ rest ->
     tl = map Received (received tl) /\ tracks ps hello shm eem certm cvm s w (List.length (received tl))).
Proof.
  intros H. induction H as [o w w' s acts retry Qo Hc Hp Hk Cs|w Hw Hp Hk|client o fuel evs s w w' s' acts retry H IH Qo Nc N|client evs s w w' H IH K]; intros Cl; [|discriminate| |].
  - rewrite ctls in Hk. destruct (start_forward Qc Qs E ccfg scfg cpsks cp chandler o w (start_of (w_cfg w)) Qo Hc Hp Hk) as (w1 & ws & random & shares & Cs' & Hm & Hk' & Ep & E1 & E2); try reflexivity; try (rewrite Hc; reflexivity).
    pose proof (frame_client_start w P o w (start_of (w_cfg w)) (frame_refl _)) as Fr. rewrite Cs' in Fr. destruct Fr as (Fc & _). cbn [fst] in Fc.
    rewrite Cs' in Cs. injection Cs as <- <- <- <-. exists (ws_hello ws), [], random, shares. split; [reflexivity|]. split; [exact Hm|]. intros _.
    assert (forall ps a b c d, tracks ps (ws_hello ws) a b c d (CWaitSH ws) w1 0) as T.
    { intros. split; [congruence|]. split; [reflexivity|]. split; [reflexivity|]. split; [exact Hk'|]. split; [rewrite E1, E2; reflexivity|exact Ep]. }
    split; [auto|]. intros ps shm eem certm cvm finm rest _ _ _. split; [reflexivity|apply T].
  - destruct (IH Cl) as (hello & tl & random & shares & -> & Hm & I1). destruct (I1 Nc) as [I2 I3]. exists hello, (tl ++ read_by fuel o w s ++ map Sent (sent_of acts)), random, shares. split; [reflexivity|]. split; [exact Hm|]. intros Nc'.
    assert (forall ps shm eem certm cvm finm rest, flight ps hello [shm; eem; certm; cvm; finm] -> rest <> [] -> [shm; eem; certm; cvm; finm] = received (tl ++ read_by fuel o w s ++ map Sent (sent_of acts)) ++ rest ->
      tl ++ read_by fuel o w s ++ map Sent (sent_of acts) = map Received (received (tl ++ read_by fuel o w s ++ map Sent (sent_of acts))) /\
      tracks ps hello shm eem certm cvm s' w' (List.length (received (tl ++ read_by fuel o w s ++ map Sent (sent_of acts))))) as G.
    { intros ps shm eem certm cvm finm rest Fl Ne Eq. rewrite !receives_app, received_sent, app_nil_r in *.
      destruct (I3 ps shm eem certm cvm finm (received (read_by fuel o w s) ++ rest) Fl) as [Et Tk]; [intros Z; apply app_eq_nil in Z; tauto|rewrite app_assoc; exact Eq|].
      assert (reads s) as Rd by (destruct s; try exact I; destruct Tk as [_ Tk]; contradiction).
      destruct (next_reads _ _ _ _ _ _ _ _ Rd N) as (w1 & hm & Hr & Rb & St). rewrite Rb in *. change (received [Received hm]) with [hm] in *. rewrite app_length. cbn [List.length]. rewrite Nat.add_1_r.
      assert (List.length (received tl) < 4)%nat as L4. { apply (f_equal (@List.length _)) in Eq. rewrite !app_length in Eq. cbn [List.length] in Eq. destruct rest; [congruence|]. cbn [List.length] in Eq. lia. }
      assert (nth (List.length (received tl)) [shm; eem; certm; cvm; finm] hello = hm) as Nh. { rewrite Eq, <- app_assoc, app_nth2, Nat.sub_diag by lia. reflexivity. }
      destruct (step_goes _ _ _ _ _ _ _ o w1 s _ Fl Qo (tracks_kept Qc E ccfg _ _ _ _ _ _ _ _ _ _ (kept_hr _ _ _ _ _ Hr) Tk) L4) as [G _]. rewrite Nh, St in G. destruct G as (_ & Tk' & Ea).
      assert (sent_of acts = []) as -> by (rewrite Ea; unfold sh_acts; destruct s'; reflexivity). split; [|exact Tk']. cbn [map]. rewrite app_nil_r, map_app, <- Et. reflexivity. }
    split; [|exact G]. rewrite !receives_app, received_sent, app_nil_r. intros Z. apply app_eq_nil in Z. destruct Z as [Z1 Z2]. exfalso. destruct (I2 Z1) as [-> T0].
    assert (reads s) as Rd by (specialize (T0 (mkSuite 0 SHA256 0 0) hello hello hello hello); destruct s; try exact I; destruct T0 as [_ T0]; contradiction).
    destruct (next_reads _ _ _ _ _ _ _ _ Rd N) as (w1 & hm & _ & Rb & _). rewrite Rb in Z2. discriminate.
  - destruct (IH Cl) as (hello & tl & random & shares & -> & Hm & I1). exists hello, tl, random, shares. split; [reflexivity|]. split; [exact Hm|]. intros Nc. destruct (I1 Nc) as [I2 I3]. split.
    + intros Z. destruct (I2 Z) as [-> T]. split; [reflexivity|]. intros. eapply tracks_kept; [exact K|apply T].
    + intros ps shm eem certm cvm finm rest Fl Ne Eq. destruct (I3 ps shm eem certm cvm finm rest Fl Ne Eq) as [Et Tk]. split; [exact Et|]. eapply tracks_kept; [exact K|exact Tk].
Qed.

(** ** The server *)

Lemma like_start : server_like scfg sc.
Proof. split; [exact shandler|]. split; [reflexivity|]. split; [reflexivity|]. split; [exact (cp_nocookie _ _ _ _ _ _ cp)|]. split; [reflexivity|exact (cp_noauth _ _ _ _ _ _ cp)]. Qed.
Lemma server_history client evs s w : path Qs E scfg spsks client evs s w -> client = false -> server_like scfg (w_cfg w) /\
  ((evs = [] /\ s = SStart) \/ exists hm tl, evs = Received hm :: tl /\ forall random shares, hello_msg hm random shares -> not_connected s ->
   match s with
   | SNegotiated n => tl = [] /\ chosen random shares n hm
   | SWaitFlight2 k | SWaitFinished k _ => exists ms, flight (sk_suite k) hm ms /\ tl = map Sent ms /\ w_hash w = marshals (hm :: ms) /\ p_usingClientAuth (sk_params k) = false
   | _ => False
   end).
Proof.
  intros H. induction H as [o w w' s acts retry Qo Hc Hp Hk Cs|w Hw Hp Hk|client o fuel evs s w w' s' acts retry H IH Qo Nc N|client evs s w w' H IH K]; intros Cl; [discriminate| | |].
  - split; [|left; auto]. destruct Hw as [->|(_ & p & ->)]; exact like_start.
  - destruct (IH Cl) as [Lk I1]. pose proof (path_kind _ _ _ _ _ _ _ _ H) as Hk. rewrite stls in Hk.
    assert (w_cfg w' = w_cfg w) as Fc.
    { destruct (server_path _ _ _ _ _ _ _ _ H Cl) as (pr & At). pose proof (frame_next P X o fuel w s) as Fr. rewrite N in Fr. destruct s; try contradiction; apply Fr. }
    split; [rewrite Fc; exact Lk|]. right.
    destruct I1 as [[-> ->]|(hm & tl & -> & I1)].
    + destruct (next_reads _ _ _ _ _ _ _ _ (I : reads SStart) N) as (w1 & hm & Hr & -> & St). exists hm, (map Sent (sent_of acts)). split; [reflexivity|]. intros random shares Hm _. cbn [step_of] in St.
      destruct (kept_hr _ _ _ _ _ Hr) as (_ & K2 & _ & K4).
      destruct (server_start_forward Qc Qs E ccfg scfg cpsks cp o w1 hm random shares Qo) as (w2 & n & Ss & Ch); [now rewrite K2|congruence|exact Hm|]. rewrite Ss in St. injection St as <- <- <- <-. split; [reflexivity|exact Ch].
    + exists hm, (tl ++ read_by fuel o w s ++ map Sent (sent_of acts)). split; [reflexivity|]. intros random shares Hm Nc'. specialize (I1 random shares Hm Nc). destruct s; try contradiction.
      * destruct I1 as [-> Ch]. cbn [next] in N. destruct (negotiated_forward Qc Qs E ccfg scfg cpsks cp msized o w n random shares hm Qo Lk Ch) as (w2 & k & acts' & Sn & Fl & Ca & Wh).
        rewrite Sn in N. injection N as <- <- <- <-. exists (sent_of acts'). auto.
      * destruct I1 as (ms & Fl & -> & Wh & Ca). cbn [next] in N. unfold server_wait_flight2, done in N. injection N as <- <- <- <-. rewrite Ca. exists ms. cbn [read_by sent_of map]. rewrite !app_nil_r. auto.
      * destruct (next_reads _ _ _ _ _ _ _ _ (I : reads (SWaitFinished k peer)) N) as (w1 & m & _ & _ & St). cbn [step_of] in St. apply server_wait_finished_ok in St. destruct St as (_ & _ & St). cbv zeta in St. destruct St as (_ & _ & -> & _). contradiction.
  - destruct (IH Cl) as [Lk I1]. destruct K as (K1 & K2 & _). split; [rewrite K2; exact Lk|]. destruct I1 as [I1|(hm & tl & -> & I1)]; [left; exact I1|right]. exists hm, tl. split; [reflexivity|]. intros random shares Hm Nc. rewrite K1. now apply (I1 random shares).
Qed.
End Run.
