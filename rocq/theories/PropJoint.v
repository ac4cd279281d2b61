(** Properties C35, C36, C38, C47 and C63 of whole connections over a stream: two new ends, any calls at both, any cutting of the byte
    stream. Nothing is assumed of the messages that arrive, or of the state the ends are in when the handshake is complete. *)
From Verif Require Import Base Frame FrameProofs Record RecordSpec HandshakeProofs Handshake Crypto CryptoSpec PropCrypto Messages Pki Negotiation Machine Conn ConnSpec ConnProofs RunSpec RunProofs SessionSpec Toy
  PropTrace PropConn PropSession AgreeSpec PropAgree ChannelSpec ChannelProofs PropChannel PropServer PropEnds TurnProofs JointSpec JointProofs.

Lemma session_steady Qc Qs E ccfg scfg cpsks spsks ce se t n : session Qc Qs E ccfg scfg cpsks spsks ce se t n ->
  steady Qc E (newConn ccfg cpsks true []) ce (n_client n) /\ steady Qs E (newConn scfg spsks false []) se (n_server n).
Proof.
  induction 1 as [|ce se t n fuel os c' r _ [A B] Qo T Fr Sm|ce se t n fuel os c' r _ [A B] Qo T Fr Sm|ce se t n w g c' _ [A B] U|ce se t n w g c' _ [A B] U
    |ce se t n x y _ [A B] Ex|ce se t n x y _ [A B] Ex]; unfold client_calls, server_calls; cbn [n_client n_server].
  - split; constructor.
  - split; [|exact B]. eapply steady_other; [|apply ou_output]. eapply steady_handshake; eauto.
  - split; [exact A|]. eapply steady_other; [|apply ou_output]. eapply steady_handshake; eauto.
  - split; [|exact B]. eapply steady_other; [|apply ou_output]. eapply steady_other; [exact A|eapply use_other; exact U].
  - split; [exact A|]. eapply steady_other; [|apply ou_output]. eapply steady_other; [exact B|eapply use_other; exact U].
  - split; [exact A|]. eapply steady_other; [exact B|apply ou_input].
  - split; [|exact B]. eapply steady_other; [exact A|apply ou_input].
Qed.

Section Whole.
Variables (Qc Qs : oracle -> Prop) (E : env) (ccfg scfg : config) (cpsks spsks : cache).
Hypothesis ok : joint_ok Qc Qs E ccfg scfg cpsks spsks.
Notation whole := (session Qc Qs E ccfg scfg cpsks spsks).
Notation joined := (session_joined Qc Qs E ccfg scfg cpsks spsks ok).

Lemma phase_talks ce se t C S up down : phase Qs E scfg spsks ce se t C S up down -> delivered (sent ce) (received se) /\ delivered (sent se) (received ce).
Proof.
  intros [[-> [H|[H|H]]]|[H|H]].
  - destruct H as (tsu & tsd & _ & _ & A & B & _). split; eapply talk_delivered; eauto.
  - destruct H as (ws & k & shs & before & hello & shm & eem & fl & sfin & pre & es & dh & H). cbv zeta in H. destruct H as (_ & _ & _ & _ & _ & _ & A & B & _). split; eapply talk_delivered; eauto.
  - destruct H as (cs & ck & k & shs & before & hello & shm & eem & fl & sfin & pre & es & dh & cevs0 & got & seen & rest & H). cbv zeta in H.
    destruct H as (_ & _ & _ & _ & _ & _ & _ & _ & _ & _ & _ & _ & _ & A & B & _). split; eapply talk_delivered; eauto.
  - destruct H as (k & l & cfin & r1 & d & items & H). cbv zeta in H. destruct H as (_ & _ & _ & _ & _ & _ & _ & _ & _ & _ & _ & _ & _ & A & B & _). split; eapply talk_delivered; eauto.
  - destruct H as (s & iu & id & _ & _ & A & B & _). split; eapply talk_delivered; eauto.
Qed.
Lemma whole_delivered ce se t n : whole ce se t n -> delivered (sent ce) (received se) /\ delivered (sent se) (received ce).
Proof. intros H. destruct (joined _ _ _ _ H) as (_ & _ & Ph & _). eapply phase_talks; eauto. Qed.

Lemma whole_ends ce se t n : whole ce se t n -> c_complete (n_client n) = true -> c_complete (n_server n) = true -> two_ends Qc Qs E E ccfg scfg cpsks spsks (n_client n) (n_server n).
Proof.
  intros H C1 C2. destruct (session_steady _ _ _ _ _ _ _ _ _ _ _ H) as [S1 S2]. destruct ok. split; auto; [congruence|].
  exists [], [], ce, se. split; [exact S1|]. split; [exact S2|]. eapply whole_delivered; eauto.
Qed.

Lemma complete_linked ce se t n : whole ce se t n -> c_complete (n_server n) = true -> phase_linked E ce se t (n_client n) (n_server n) (n_up n) (n_down n).
Proof.
  intros H Cs. destruct (joined _ _ _ _ H) as (_ & _ & Ph & _). destruct (phase_quiet _ _ _ _ _ _ _ _ _ _ _ Ph) as [[_ (Q & _)]|[D|L]]; [congruence| |exact L].
  destruct D as (k & l & cfin & r1 & d & items & D). cbv zeta in D. destruct D as (_ & _ & _ & _ & (Q & _) & _). congruence.
Qed.
Lemma whole_linked ce se t n : whole ce se t n -> c_complete (n_server n) = true -> exists s up down, cipherSuiteMap (s_id s) = Some s /\ linked E s n up down /\
    wrote_c t = got_s t ++ c_readBuffer (n_server n) ++ app_data up /\ wrote_s t = got_c t ++ c_readBuffer (n_client n) ++ app_data down.
Proof.
  intros H Cs. destruct (complete_linked _ _ _ _ H Cs) as (s & iu & id & K & L & _ & _ & A & B). exists s, iu, id. destruct n. auto.
Qed.
Lemma done_duplex ce se t C S up down : l_out (c_out C) = [] -> phase_done E ce se t C S up down -> exists s p d items, cipherSuiteMap (s_id s) = Some s /\ duplex E s true C p down d [] items.
Proof.
  intros Lo (k & l & cfin & r1 & d & items & H). cbv zeta in H. destruct H as (Ks & Eo & Rb & Wt & Q2 & Ty & T20 & Ah & (R1 & R2 & R3) & Wc & Fl & Tx & Dr & _).
  exists (sk_suite k), (ghost S k r1), d, items. split; [exact Ks|]. split; [exact Eo|]. split; [exact Dr|]. split; [exact Wc|].
  change (c_in (ghost S k r1)) with (mkRl r1 (newFrameReader (recordFraming false)) None [] []). split.
  - split; [|auto]. split; [reflexivity|]. cbn [l_core]. rewrite R1. split; [apply fr_ok_new; cbn; lia|]. constructor.
  - cbn [l_core]. rewrite Lo. change (rl_data _) with (@nil byte). cbn [List.app concat]. rewrite app_nil_r. exact Fl.
Qed.
Lemma whole_outcomes ce se t n : whole ce se t n -> (c_complete (n_client n) = true -> outcomes E (n_client n)) /\ (c_complete (n_server n) = true -> outcomes E (n_server n)).
Proof.
  intros H. split; intros Cc.
  - destruct (joined _ _ _ _ H) as (_ & _ & Ph & Lo & _). destruct (phase_quiet _ _ _ _ _ _ _ _ _ _ _ Ph) as [[(Q & _) _]|[D|L]]; [congruence| |].
    + destruct (done_duplex _ _ _ _ _ _ _ Lo D) as (s & p & d & items & K & Dx). exact (duplex_outcomes _ _ _ _ _ _ _ _ _ (jo_gcm _ _ _ _ _ _ _ ok) (jo_sized _ _ _ _ _ _ _ ok) K Dx).
    + destruct L as (s & iu & id & K & L & _). apply linked_client in L as [D _]. exact (duplex_outcomes _ _ _ _ _ _ _ _ _ (jo_gcm _ _ _ _ _ _ _ ok) (jo_sized _ _ _ _ _ _ _ ok) K D).
  - destruct (whole_linked _ _ _ _ H Cc) as (s & iu & id & K & L & _). apply linked_server in L as [D _]. exact (duplex_outcomes _ _ _ _ _ _ _ _ _ (jo_gcm _ _ _ _ _ _ _ ok) (jo_sized _ _ _ _ _ _ _ ok) K D).
Qed.
Lemma whole_stream ce se t n : whole ce se t n -> (exists rest, wrote_c t = got_s t ++ rest) /\ (exists rest, wrote_s t = got_c t ++ rest).
Proof.
  intros H. destruct (joined _ _ _ _ H) as (_ & _ & Ph & _). destruct Ph as [[-> _]|[D|L]].
  - cbn. eauto.
  - destruct D as (k & l & cfin & r1 & d & items & D). cbv zeta in D. destruct D as (_ & _ & _ & _ & _ & _ & _ & _ & _ & _ & _ & _ & _ & _ & _ & ->). cbn. eauto.
  - destruct L as (s & iu & id & _ & _ & _ & _ & A & B). eauto.
Qed.
(** Once the last bytes have arrived, reading gives all there is. *)
Lemma whole_reads ce se t n : whole ce se t n -> c_complete (n_server n) = true -> n_up n = [] -> cf_nonBlocking (c_cfg (n_server n)) = false -> wrote_c t <> got_s t ->
  exists turns, forall fuel os k c' r, (turns <= List.length os)%nat -> (0 < k)%nat -> read E fuel os (n_server n) k = (c', r) ->
    (exists d more, r = Ok d /\ d <> [] /\ wrote_c t = got_s t ++ d ++ more) \/ r = Panic /\ spent c'.
Proof.
  intros H Cs U NB X. destruct (joined _ _ _ _ H) as (_ & _ & _ & Lo & _). destruct (whole_linked _ _ _ _ H Cs) as (s & up & down & K & Ln & A & _). apply linked_server in Ln as [D _].
  pose proof (jo_gcm _ _ _ _ _ _ _ ok) as G. pose proof (jo_sized _ _ _ _ _ _ _ ok) as M.
  unfold at_server in D. rewrite U in D. exists (List.length (l_in (c_in (n_server n))) + List.length up)%nat. intros fuel os k c' r Ht Hk R.
  assert (Y : c_readBuffer (n_server n) ++ app_data up <> []). { intros Y. apply X. rewrite A, Y. now rewrite app_nil_r. }
  destruct (read_delivers E s G M K _ _ _ _ _ _ _ _ _ _ _ D Lo Hk NB Y Ht R) as [(d & ->)|Q]; [left|right; exact Q].
  destruct (read_ok E s G M K _ _ _ _ _ _ _ _ _ _ _ _ D R) as (done & todo & back & -> & Kk & Hne). destruct Kk as (_ & _ & Kk); [discriminate|].
  exists d, (c_readBuffer c' ++ app_data todo). split; [reflexivity|]. split; [auto|]. rewrite A, app_data_app. f_equal. rewrite app_assoc, Kk. now rewrite <- app_assoc.
Qed.
Lemma whole_reads_client ce se t n : whole ce se t n -> c_complete (n_client n) = true -> n_down n = [] -> cf_nonBlocking (c_cfg (n_client n)) = false -> wrote_s t <> got_c t ->
  exists turns, forall fuel os k c' r, (turns <= List.length os)%nat -> (0 < k)%nat -> read E fuel os (n_client n) k = (c', r) ->
    (exists d more, r = Ok d /\ d <> [] /\ wrote_s t = got_c t ++ d ++ more) \/ r = Panic /\ spent c'.
Proof.
  intros H Cc U NB X. destruct (joined _ _ _ _ H) as (_ & _ & Ph & _ & Lo).
  assert (exists s up down, cipherSuiteMap (s_id s) = Some s /\ linked E s n up down /\ wrote_s t = got_c t ++ c_readBuffer (n_client n) ++ app_data down) as (s & up & down & K & Ln & A).
  { destruct Ph as [[-> _]|[D|L]]; [destruct X; reflexivity| |].
    - destruct D as (k & l & cfin & r1 & d & items & D). cbv zeta in D. destruct D as (_ & _ & _ & _ & _ & _ & _ & _ & _ & _ & _ & _ & _ & _ & _ & ->). destruct X. reflexivity.
    - destruct L as (s & iu & id & K & L & _ & _ & A & B). exists s, iu, id. destruct n. auto. }
  apply linked_client in Ln as [D _].
  pose proof (jo_gcm _ _ _ _ _ _ _ ok) as G. pose proof (jo_sized _ _ _ _ _ _ _ ok) as M.
  unfold at_client in D. rewrite U in D. exists (List.length (l_in (c_in (n_client n))) + List.length down)%nat. intros fuel os k c' r Ht Hk R.
  assert (Y : c_readBuffer (n_client n) ++ app_data down <> []). { intros Y. apply X. rewrite A, Y. now rewrite app_nil_r. }
  destruct (read_delivers E s G M K _ _ _ _ _ _ _ _ _ _ _ D Lo Hk NB Y Ht R) as [(d & ->)|Q]; [left|right; exact Q].
  destruct (read_ok E s G M K _ _ _ _ _ _ _ _ _ _ _ _ D R) as (done & todo & back & -> & Kk & Hne). destruct Kk as (_ & _ & Kk); [discriminate|].
  exists d, (c_readBuffer c' ++ app_data todo). split; [reflexivity|]. split; [auto|]. rewrite A, app_data_app. f_equal. rewrite app_assoc, Kk. now rewrite <- app_assoc.
Qed.
End Whole.

(** ** Theorems *)

(** C63: the handshake messages an end has received are the first of those the other end has sent, in order and unchanged. *)
Theorem C63_messages : forall Qc Qs E ccfg scfg cpsks spsks ce se t n, joint_ok Qc Qs E ccfg scfg cpsks spsks -> session Qc Qs E ccfg scfg cpsks spsks ce se t n ->
  delivered (sent ce) (received se) /\ delivered (sent se) (received ce).
Proof. intros. eapply whole_delivered; eauto. Qed.
Print Assumptions C63_messages.

(** C35: when both ends are complete their sessions agree. *)
Lemma whole_agree Qc Qs E ccfg scfg cpsks spsks ce se t n : joint_ok Qc Qs E ccfg scfg cpsks spsks -> session Qc Qs E ccfg scfg cpsks spsks ce se t n ->
  c_complete (n_client n) = true -> c_complete (n_server n) = true ->
  exists k k', same_session k (c_state (n_client n)) /\ same_session k' (c_state (n_server n)) /\ AgreeSpec.agree (v_prims E) k k'.
Proof. intros O H A B. exact (ends_sessions _ _ _ _ _ _ _ _ _ _ (whole_ends _ _ _ _ _ _ _ O _ _ _ _ H A B)). Qed.
Theorem C35_session : forall Qc Qs E ccfg scfg cpsks spsks ce se t n, joint_ok Qc Qs E ccfg scfg cpsks spsks -> session Qc Qs E ccfg scfg cpsks spsks ce se t n ->
  c_complete (n_client n) = true -> c_complete (n_server n) = true ->
  exists k k', same_session k (c_state (n_client n)) /\ same_session k' (c_state (n_server n)) /\ AgreeSpec.agree (v_prims E) k k'.
Proof. exact whole_agree. Qed.
Print Assumptions C35_session.

(** C38: they export the same. *)
Lemma whole_export Qc Qs E ccfg scfg cpsks spsks ce se t n label context k : joint_ok Qc Qs E ccfg scfg cpsks spsks -> session Qc Qs E ccfg scfg cpsks spsks ce se t n ->
  c_complete (n_client n) = true -> c_complete (n_server n) = true -> computeExporter E (n_server n) label context k = computeExporter E (n_client n) label context k.
Proof. intros O H A B. exact (ends_export _ _ _ _ _ _ _ _ _ _ _ _ _ (whole_ends _ _ _ _ _ _ _ O _ _ _ _ H A B)). Qed.
Theorem C38_session : forall Qc Qs E ccfg scfg cpsks spsks ce se t n label context k, joint_ok Qc Qs E ccfg scfg cpsks spsks -> session Qc Qs E ccfg scfg cpsks spsks ce se t n ->
  c_complete (n_client n) = true -> c_complete (n_server n) = true -> computeExporter E (n_server n) label context k = computeExporter E (n_client n) label context k.
Proof. exact whole_export. Qed.
Print Assumptions C38_session.

(** C36: once the server is complete the two ends are in step. *)
Theorem C36_joined : forall Qc Qs E ccfg scfg cpsks spsks ce se t n, joint_ok Qc Qs E ccfg scfg cpsks spsks -> session Qc Qs E ccfg scfg cpsks spsks ce se t n ->
  c_complete (n_server n) = true -> exists s up down, cipherSuiteMap (s_id s) = Some s /\ linked E s n up down /\
    wrote_c t = got_s t ++ c_readBuffer (n_server n) ++ app_data up /\ wrote_s t = got_c t ++ c_readBuffer (n_client n) ++ app_data down.
Proof. intros. eapply whole_linked; eauto. Qed.
Print Assumptions C36_joined.
(** C36: at an end whose handshake is complete (the other may have to read the Finished yet) no record fails to open. *)
Theorem C36_session : forall Qc Qs E ccfg scfg cpsks spsks ce se t n, joint_ok Qc Qs E ccfg scfg cpsks spsks -> session Qc Qs E ccfg scfg cpsks spsks ce se t n ->
  (c_complete (n_client n) = true -> outcomes E (n_client n)) /\ (c_complete (n_server n) = true -> outcomes E (n_server n)).
Proof. intros. eapply whole_outcomes; eauto. Qed.
Print Assumptions C36_session.
(** C36: nothing gets stuck. *)
Theorem C36_session_reads : forall Qc Qs E ccfg scfg cpsks spsks ce se t n, joint_ok Qc Qs E ccfg scfg cpsks spsks -> session Qc Qs E ccfg scfg cpsks spsks ce se t n ->
  c_complete (n_server n) = true -> n_up n = [] -> cf_nonBlocking (c_cfg (n_server n)) = false -> wrote_c t <> got_s t ->
  exists turns, forall fuel os k c' r, (turns <= List.length os)%nat -> (0 < k)%nat -> read E fuel os (n_server n) k = (c', r) ->
    (exists d more, r = Ok d /\ d <> [] /\ wrote_c t = got_s t ++ d ++ more) \/ r = Panic /\ spent c'.
Proof. intros. eapply whole_reads; eauto. Qed.
Print Assumptions C36_session_reads.
Theorem C36_session_reads_client : forall Qc Qs E ccfg scfg cpsks spsks ce se t n, joint_ok Qc Qs E ccfg scfg cpsks spsks -> session Qc Qs E ccfg scfg cpsks spsks ce se t n ->
  c_complete (n_client n) = true -> n_down n = [] -> cf_nonBlocking (c_cfg (n_client n)) = false -> wrote_s t <> got_c t ->
  exists turns, forall fuel os k c' r, (turns <= List.length os)%nat -> (0 < k)%nat -> read E fuel os (n_client n) k = (c', r) ->
    (exists d more, r = Ok d /\ d <> [] /\ wrote_s t = got_c t ++ d ++ more) \/ r = Panic /\ spent c'.
Proof. intros. eapply whole_reads_client; eauto. Qed.
Print Assumptions C36_session_reads_client.

(** C47: at all times the bytes each application has got are the first of those the other has written. *)
Theorem C47_session : forall Qc Qs E ccfg scfg cpsks spsks ce se t n, joint_ok Qc Qs E ccfg scfg cpsks spsks -> session Qc Qs E ccfg scfg cpsks spsks ce se t n ->
  (exists rest, wrote_c t = got_s t ++ rest) /\ (exists rest, wrote_s t = got_c t ++ rest).
Proof. intros. eapply whole_stream; eauto. Qed.
Print Assumptions C47_session.

(** ** Examples *)

(** Calls and deliveries one after the other, with all that [session] asks for checked. *)
Inductive act := Hs (client : bool) (seed : N) (turns : nat) | Put (client : bool) (b : bytes) | Get (client : bool) (n : nat) | Upd (client : bool) (b : bool) | Move (to_client : bool) (n : nat).
Definition smallb (evs : list event) : bool := forallb (fun m => len (hm_body m) <? 2 ^ 24) (sent evs).
Fixpoint loop_blockedb (os : list oracle) (c : conn) (s : hstate) : bool :=
  match os with [] => true | o :: os => match handshake_turn toy_env 20 o c s with (c, Ok (s, _)) => loop_blockedb os c s | _ => false end end.
Definition blockedb (os : list oracle) (c : conn) : bool :=
  match c_hState c with
  | Some s => loop_blockedb os c s
  | None => match os with [] => true | o :: os => match handshakeSetup toy_env o c with (c, Ok _) => match c_hState c with Some s => loop_blockedb os c s | None => false end | _ => false end end
  end.
Definition panics {A} (r : res A) : bool := match r with Panic => true | _ => false end.
Definition history : Type := (list event * list event) * (traffic * net).
Definition perform (a : act) (h : history) : option history :=
  let '((ce, se), (t, n)) := h in
  match a with
  | Hs true seed k =>
      let os := toy_oracles seed k in let '(c', r) := handshake toy_env 20 os (n_client n) in let evs := handshake_events toy_env 20 os (n_client n) in
      if (fineb r || blockedb os (n_client n)) && smallb evs then Some ((ce ++ evs, se), (t, client_calls n c')) else None
  | Hs false seed k =>
      let os := toy_oracles seed k in let '(c', r) := handshake toy_env 20 os (n_server n) in let evs := handshake_events toy_env 20 os (n_server n) in
      if (fineb r || blockedb os (n_server n)) && smallb evs then Some ((ce, se ++ evs), (t, server_calls n c')) else None
  | Put true b => let '(c', (k, r)) := write (n_client n) b in if panics r then None else Some ((ce, se), (more_client t (firstn k b) [], client_calls n c'))
  | Put false b => let '(c', (k, r)) := write (n_server n) b in if panics r then None else Some ((ce, se), (more_server t (firstn k b) [], server_calls n c'))
  | Get true k => let '(c', r) := read toy_env 20 (toy_oracles 900 5) (n_client n) k in
      if panics r then None else Some ((ce, se), (more_client t [] (match r with Ok d => d | _ => [] end), client_calls n c'))
  | Get false k => let '(c', r) := read toy_env 20 (toy_oracles 900 5) (n_server n) k in
      if panics r then None else Some ((ce, se), (more_server t [] (match r with Ok d => d | _ => [] end), server_calls n c'))
  | Upd true b => let '(c', r) := sendKeyUpdate toy_env (toy_oracle 800) (n_client n) b in if panics r then None else Some ((ce, se), (more_client t [] [], client_calls n c'))
  | Upd false b => let '(c', r) := sendKeyUpdate toy_env (toy_oracle 800) (n_server n) b in if panics r then None else Some ((ce, se), (more_server t [] [], server_calls n c'))
  | Move false k => if (len (n_up n) =? 0) then Some h else Some ((ce, se), (t, mkNet (n_client n) (arrives (n_server n) [RBytes (firstn k (n_up n))]) (skipn k (n_up n)) (n_down n)))
  | Move true k => if (len (n_down n) =? 0) then Some h else Some ((ce, se), (t, mkNet (arrives (n_client n) [RBytes (firstn k (n_down n))]) (n_server n) (n_up n) (skipn k (n_down n))))
  end.
Fixpoint performs (l : list act) (h : history) : option history := match l with [] => Some h | a :: l => match perform a h with Some h => performs l h | None => None end end.
Definition opening (ccfg scfg : config) : history := (([], []), (mkTr [] [] [] [], mkNet (newConn ccfg [] true []) (newConn scfg [] false []) [] [])).
Definition holds (ccfg scfg : config) (h : history) : Prop := session toy_like toy_like toy_env ccfg scfg [] [] (fst (fst h)) (snd (fst h)) (fst (snd h)) (snd (snd h)).

Lemma smallb_ok evs : smallb evs = true -> small evs.
Proof. intros H. unfold small. apply Forall_forall. intros m I. apply N.ltb_lt. exact (proj1 (forallb_forall _ _) H m I). Qed.
Lemma loop_blockedb_ok os : forall c s, loop_blockedb os c s = true -> loop_blocked toy_env 20 os c s.
Proof.
  induction os as [|o os IH]; intros c s; cbn [loop_blockedb loop_blocked]; [auto|]. destruct (handshake_turn toy_env 20 o c s) as [c1 [[s1 b]|e| |]]; try discriminate. apply IH.
Qed.
Lemma blockedb_ok os c : blockedb os c = true -> blocked toy_env 20 os c.
Proof.
  unfold blockedb, blocked. destruct (c_hState c); [apply loop_blockedb_ok|]. destruct os as [|o os]; [auto|]. destruct (handshakeSetup toy_env o c) as [c1 [u|e| |]]; try discriminate.
  destruct (c_hState c1); [apply loop_blockedb_ok|discriminate].
Qed.
Lemma panics_ok {A} (r : res A) : panics r = false -> r <> Panic.
Proof. destruct r; intros H Q; discriminate. Qed.
Lemma perform_ok ccfg scfg a h h' : holds ccfg scfg h -> perform a h = Some h' -> holds ccfg scfg h'.
Proof.
  destruct h as [[ce se] [t n]]. unfold holds. cbn [fst snd]. intros H P. unfold perform in P. destruct a as [[|] seed k|[|] b|[|] k|[|] b|[|] k].
  - cbv zeta in P. destruct (handshake toy_env 20 (toy_oracles seed k) (n_client n)) as [c' r] eqn:T. destruct (_ && _) eqn:B; [|discriminate]. injection P as <-. cbn [fst snd].
    apply andb_prop in B. destruct B as [B1 B2]. eapply sn_client_handshake; [exact H|apply toy_oracles_like|exact T| |now apply smallb_ok].
    apply orb_prop in B1. destruct B1 as [B1|B1]; [left; now apply fineb_ok|right; now apply blockedb_ok].
  - cbv zeta in P. destruct (handshake toy_env 20 (toy_oracles seed k) (n_server n)) as [c' r] eqn:T. destruct (_ && _) eqn:B; [|discriminate]. injection P as <-. cbn [fst snd].
    apply andb_prop in B. destruct B as [B1 B2]. eapply sn_server_handshake; [exact H|apply toy_oracles_like|exact T| |now apply smallb_ok].
    apply orb_prop in B1. destruct B1 as [B1|B1]; [left; now apply fineb_ok|right; now apply blockedb_ok].
  - destruct (write (n_client n) b) as [c' [k r]] eqn:T. destruct (panics r) eqn:B; [discriminate|]. injection P as <-. cbn [fst snd]. apply sn_client_use; [exact H|]. eapply us_write; [exact T|now apply panics_ok].
  - destruct (write (n_server n) b) as [c' [k r]] eqn:T. destruct (panics r) eqn:B; [discriminate|]. injection P as <-. cbn [fst snd]. apply sn_server_use; [exact H|]. eapply us_write; [exact T|now apply panics_ok].
  - destruct (read toy_env 20 (toy_oracles 900 5) (n_client n) k) as [c' r] eqn:T. destruct (panics r) eqn:B; [discriminate|]. injection P as <-. cbn [fst snd]. apply sn_client_use; [exact H|]. eapply us_read; [exact T|now apply panics_ok].
  - destruct (read toy_env 20 (toy_oracles 900 5) (n_server n) k) as [c' r] eqn:T. destruct (panics r) eqn:B; [discriminate|]. injection P as <-. cbn [fst snd]. apply sn_server_use; [exact H|]. eapply us_read; [exact T|now apply panics_ok].
  - destruct (sendKeyUpdate toy_env (toy_oracle 800) (n_client n) b) as [c' r] eqn:T. destruct (panics r) eqn:B; [discriminate|]. injection P as <-. cbn [fst snd]. apply sn_client_use; [exact H|]. eapply us_update; [exact T|now apply panics_ok].
  - destruct (sendKeyUpdate toy_env (toy_oracle 800) (n_server n) b) as [c' r] eqn:T. destruct (panics r) eqn:B; [discriminate|]. injection P as <-. cbn [fst snd]. apply sn_server_use; [exact H|]. eapply us_update; [exact T|now apply panics_ok].
  - destruct (_ =? 0); injection P as <-; [exact H|]. cbn [fst snd]. apply sn_deliver_client; [exact H|]. symmetry. apply firstn_skipn.
  - destruct (_ =? 0); injection P as <-; [exact H|]. cbn [fst snd]. apply sn_deliver_server; [exact H|]. symmetry. apply firstn_skipn.
Qed.
Lemma performs_ok ccfg scfg l : forall h h', holds ccfg scfg h -> performs l h = Some h' -> holds ccfg scfg h'.
Proof.
  induction l as [|a l IH]; intros h h' H P; cbn [performs] in P; [injection P as <-; exact H|]. destruct (perform a h) as [h1|] eqn:A; [|discriminate]. eapply IH; [|exact P]. eapply perform_ok; eauto.
Qed.
Lemma opening_holds ccfg scfg : holds ccfg scfg (opening ccfg scfg).
Proof. constructor. Qed.

(** A client and a server in blocking mode, and in non-blocking mode; the records arrive in pieces, both ends write before
    the server is complete or after, keys are updated. *)
Definition rounds : list act := concat (map (fun i => [Hs true (i * 10) 2; Move false 100; Move false 5000; Hs false (i * 10 + 500) 2; Move true 7; Move true 5000]) [1; 2; 3; 4; 5; 6; 7; 8; 9; 10; 11; 12]).
Definition talking : list act :=
  [Put true (str "hello "); Hs false 700 2; Hs false 710 2; Upd true true; Put true (str "world"); Put false (str "hi"); Move false 30; Get false 3; Move false 5000; Get false 100; Get false 100; Put false (str " there");
   Move true 5000; Get true 1; Get true 1; Get true 100].
Definition asking_run := performs (rounds ++ talking) (opening ends_config ends_config).
Definition greeting : list act := [Hs true 1 1; Move false 5000; Hs false 500 4; Move true 9; Move true 5000; Hs true 10 3; Hs true 20 2].
Definition waiting : list act :=
  [Put true (str "hello "); Move false 5000; Hs false 700 1; Upd true true; Put true (str "world"); Put false (str "hi"); Move false 5000; Get false 3; Move true 5000].
Definition waiting_run := performs (greeting ++ waiting) (opening ticket_config ticket_config).

Definition ended (o : option history) : history := match o with Some h => h | None => opening ticket_config ticket_config end.
Definition asking_end := ended asking_run.
Definition waiting_end := ended waiting_run.
Lemma asking_holds : holds ends_config ends_config asking_end.
Proof. eapply performs_ok; [apply opening_holds|]. instantiate (1 := rounds ++ talking). nf. Qed.
Lemma waiting_holds : holds ticket_config ticket_config waiting_end.
Proof. eapply performs_ok; [apply opening_holds|]. instantiate (1 := greeting ++ waiting). nf. Qed.
Lemma toy_tickets o buf : toy_like o -> o_ticket o = Some buf -> len buf <= 16000.
Proof.
  intros [seed ->] H. change (Some (be 36 (seed + 1234567)) = Some buf) in H. assert (K : be 36 (seed + 1234567) = buf) by (apply (f_equal (fun x => match x with Some b => b | None => [] end)) in H; exact H).
  rewrite <- K, len_be. lia.
Qed.
Lemma asking_ok : joint_ok toy_like toy_like toy_env ends_config ends_config [] [].
Proof. split; [exact toy_prims_sized|exact toy_gcm_ok|exact toy_curves|exact ends_shared|exact toy_inverts|reflexivity|reflexivity|reflexivity|reflexivity|exact toy_groups|reflexivity|exact toy_tickets]. Qed.
Lemma waiting_ok : joint_ok toy_like toy_like toy_env ticket_config ticket_config [] [].
Proof. split; [exact toy_prims_sized|exact toy_gcm_ok|exact toy_curves|exact ends_shared|exact toy_inverts|reflexivity|reflexivity|reflexivity|reflexivity|exact toy_groups|reflexivity|exact toy_tickets]. Qed.

(** Two messages have gone up and five down, both ends are complete, and data has gone both ways under updated keys. *)
Example C63_example : joint_ok toy_like toy_like toy_env ends_config ends_config [] [] /\
  session toy_like toy_like toy_env ends_config ends_config [] [] (fst (fst asking_end)) (snd (fst asking_end)) (fst (snd asking_end)) (snd (snd asking_end)) /\
  List.length (received (snd (fst asking_end))) = 2%nat /\ List.length (received (fst (fst asking_end))) = 5%nat.
Proof. split; [exact asking_ok|]. split; [exact asking_holds|]. split; nf. Qed.
Example C35_session_example : c_complete (n_client (snd (snd asking_end))) = true /\ c_complete (n_server (snd (snd asking_end))) = true.
Proof. split; nf. Qed.
Example C47_session_example : fst (snd asking_end) = mkTr (str "hello world") (str "hi there") (str "hi there") (str "hello world") /\ n_up (snd (snd asking_end)) = [] /\ n_down (snd (snd asking_end)) = [].
Proof. split; [nf|]. split; nf. Qed.
(** In blocking mode, with part of the data read and the rest of it there. *)
Example C36_session_example : joint_ok toy_like toy_like toy_env ticket_config ticket_config [] [] /\
  session toy_like toy_like toy_env ticket_config ticket_config [] [] (fst (fst waiting_end)) (snd (fst waiting_end)) (fst (snd waiting_end)) (snd (snd waiting_end)) /\
  c_complete (n_client (snd (snd waiting_end))) = true /\ c_complete (n_server (snd (snd waiting_end))) = true /\
  n_up (snd (snd waiting_end)) = [] /\ n_down (snd (snd waiting_end)) = [] /\
  cf_nonBlocking (c_cfg (n_server (snd (snd waiting_end)))) = false /\ cf_nonBlocking (c_cfg (n_client (snd (snd waiting_end)))) = false /\
  fst (snd waiting_end) = mkTr (str "hello world") [] (str "hi") (str "hel").
Proof. split; [exact waiting_ok|]. split; [exact waiting_holds|]. do 6 (split; [nf|]). nf. Qed.
