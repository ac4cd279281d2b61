(** Two connected ends: key updates stay in step and application data arrives as a stream. *)
From Verif Require Import Base Frame FrameProofs Record RecordSpec PropRecord HandshakeProofs Handshake Crypto PropCrypto Messages Pki Negotiation Machine Conn ConnSpec Toy PropConn ChannelSpec ChannelProofs.

(** ** What happens to a pair *)

(** C47: over an in-order transport that delivers bytes in pieces of any size, whatever the ends do (writes and reads of any sizes, key updates with or
    without a requested reply, tickets under way), the bytes returned by the Reads of an end are a prefix of those that were pending at the start and
    those accepted by the Writes of the other end, in order; what is missing is in the read buffer or under way. *)
Theorem C47_stream : forall E s n0 up0 down0 t n,
  gcm_ok E -> mac_sized (v_prims E) -> cipherSuiteMap (s_id s) = Some s ->
  linked E s n0 up0 down0 -> run E n0 t n ->
  exists up down, linked E s n up down /\
    c_readBuffer (n_server n0) ++ app_data up0 ++ wrote_c t = got_s t ++ c_readBuffer (n_server n) ++ app_data up /\
    c_readBuffer (n_client n0) ++ app_data down0 ++ wrote_s t = got_c t ++ c_readBuffer (n_client n) ++ app_data down.
Proof. intros E s n0 up0 down0 t n G M K L R. exact (run_ok E s G M K n0 up0 down0 t n L R). Qed.
Print Assumptions C47_stream.

(** C47: when nothing is under way or left in a buffer, each application has got what the other has written. *)
Lemma complete_up E s n0 up0 down0 t n : gcm_ok E -> mac_sized (v_prims E) -> cipherSuiteMap (s_id s) = Some s ->
  linked E s n0 up0 down0 -> c_readBuffer (n_server n0) = [] -> app_data up0 = [] -> run E n0 t n ->
  l_out (c_out (n_client n)) = [] -> n_up n = [] -> rl_data (c_in (n_server n)) = [] -> c_readBuffer (n_server n) = [] -> got_s t = wrote_c t.
Proof.
  intros G M K L B0 A0 R O U D B. destruct (run_ok E s G M K _ _ _ _ _ L R) as (up & down & (_ & _ & (_ & _ & F) & _) & X & _).
  rewrite O, U, D in F. cbn in F. apply flow_empty in F. subst up. rewrite B0, A0, B in X. cbn in X. rewrite app_nil_r in X. now symmetry.
Qed.
Theorem C47_complete : forall E s n0 up0 down0 t n,
  gcm_ok E -> mac_sized (v_prims E) -> cipherSuiteMap (s_id s) = Some s ->
  linked E s n0 up0 down0 -> c_readBuffer (n_server n0) = [] -> app_data up0 = [] -> run E n0 t n ->
  l_out (c_out (n_client n)) = [] -> n_up n = [] -> rl_data (c_in (n_server n)) = [] -> c_readBuffer (n_server n) = [] ->
  got_s t = wrote_c t.
Proof. exact complete_up. Qed.
Print Assumptions C47_complete.
Lemma complete_down E s n0 up0 down0 t n : gcm_ok E -> mac_sized (v_prims E) -> cipherSuiteMap (s_id s) = Some s ->
  linked E s n0 up0 down0 -> c_readBuffer (n_client n0) = [] -> app_data down0 = [] -> run E n0 t n ->
  l_out (c_out (n_server n)) = [] -> n_down n = [] -> rl_data (c_in (n_client n)) = [] -> c_readBuffer (n_client n) = [] -> got_c t = wrote_s t.
Proof.
  intros G M K L B0 A0 R O U D B. destruct (run_ok E s G M K _ _ _ _ _ L R) as (up & down & (_ & _ & _ & (_ & _ & F)) & _ & X).
  rewrite O, U, D in F. cbn in F. apply flow_empty in F. subst down. rewrite B0, A0, B in X. cbn in X. rewrite app_nil_r in X. now symmetry.
Qed.
Theorem C47_complete_client : forall E s n0 up0 down0 t n,
  gcm_ok E -> mac_sized (v_prims E) -> cipherSuiteMap (s_id s) = Some s ->
  linked E s n0 up0 down0 -> c_readBuffer (n_client n0) = [] -> app_data down0 = [] -> run E n0 t n ->
  l_out (c_out (n_server n)) = [] -> n_down n = [] -> rl_data (c_in (n_client n)) = [] -> c_readBuffer (n_client n) = [] ->
  got_c t = wrote_s t.
Proof. exact complete_down. Qed.
Print Assumptions C47_complete_client.

(** C36: the outcomes of the calls at the ends of such a pair, at any time. No record fails to open: a Read can only find that nothing complete has
    arrived ([WouldBlock]; or the number of oracles given to it was too small), a key update succeeds, and a Write succeeds unless it is given a buffer that
    holds more than fits a record with its tag; the only crash is that of a sequence number that has reached its end. *)
Definition spent (c : conn) : Prop := 2 ^ 48 - 1 <= c_seq (cur (l_core (c_out c))).
Definition outcomes (E : env) (c : conn) : Prop :=
  (forall fuel os n c' r, read E fuel os c n = (c', r) -> match r with Err e => e = WouldBlock | Panic => spent c' | _ => True end) /\
  (forall o b c' r, sendKeyUpdate E o c b = (c', r) -> r = Ok tt \/ r = Panic /\ spent c') /\
  (forall b c' n r, write c b = (c', (n, r)) ->
     match r with Ok _ => n = List.length b | Err _ => (N.to_nat 16368 <= List.length b)%nat | Panic => spent c' | Fuel => False end).
Lemma duplex_outcomes E s client c p tin tout lin lout : gcm_ok E -> mac_sized (v_prims E) -> cipherSuiteMap (s_id s) = Some s ->
  duplex E s client c p tin tout lin lout -> outcomes E c.
Proof.
  intros G M K D. split; [|split].
  - intros fuel os n c' r H. destruct (read_ok E s G M K _ _ _ _ _ _ _ _ _ _ _ _ D H) as (_ & _ & _ & _ & _ & R). destruct r; auto.
  - intros o b c' r H. destruct (send_update_ok E s G M K _ _ _ _ _ _ _ _ _ _ _ D H) as [(-> & _)|(-> & L)]; auto.
  - intros b c' n r H. destruct (write_ok E s G M K _ _ _ _ _ _ _ _ _ _ _ D H) as (_ & _ & _ & _ & _ & R). exact R.
Qed.
Lemma pair_outcomes E s n0 up0 down0 t n : gcm_ok E -> mac_sized (v_prims E) -> cipherSuiteMap (s_id s) = Some s ->
  linked E s n0 up0 down0 -> run E n0 t n -> outcomes E (n_client n) /\ outcomes E (n_server n).
Proof.
  intros G M K L R. destruct (run_ok E s G M K _ _ _ _ _ L R) as (up & down & Ln & _). split.
  - apply linked_client in Ln as [D _]. eapply duplex_outcomes; eauto.
  - apply linked_server in Ln as [D _]. eapply duplex_outcomes; eauto.
Qed.
Theorem C36_in_step : forall E s n0 up0 down0 t n,
  gcm_ok E -> mac_sized (v_prims E) -> cipherSuiteMap (s_id s) = Some s ->
  linked E s n0 up0 down0 -> run E n0 t n -> outcomes E (n_client n) /\ outcomes E (n_server n).
Proof. exact pair_outcomes. Qed.
Print Assumptions C36_in_step.

(** C36: nothing gets stuck. When all that was written has reached the input of an end in blocking mode and some application data has not been returned, a
    Read with enough turns returns some of it. *)
Lemma read_gives E s n0 up0 down0 t n : gcm_ok E -> mac_sized (v_prims E) -> cipherSuiteMap (s_id s) = Some s ->
  linked E s n0 up0 down0 -> run E n0 t n -> n_up n = [] -> l_out (c_out (n_client n)) = [] ->
  cf_nonBlocking (c_cfg (n_server n)) = false ->
  c_readBuffer (n_server n0) ++ app_data up0 ++ wrote_c t <> got_s t ->
  exists turns, forall fuel os k c' r, (turns <= List.length os)%nat -> (0 < k)%nat -> read E fuel os (n_server n) k = (c', r) ->
    (exists d, r = Ok d /\ d <> [] /\ exists more, c_readBuffer (n_server n0) ++ app_data up0 ++ wrote_c t = got_s t ++ d ++ more) \/ r = Panic /\ spent c'.
Proof.
  intros G M K L R U O NB X. destruct (run_ok E s G M K _ _ _ _ _ L R) as (up & down & Ln & A & _). apply linked_server in Ln as [D _].
  unfold at_server in D. rewrite U in D. exists (List.length (l_in (c_in (n_server n))) + List.length up)%nat. intros fuel os k c' r Ht Hk H.
  assert (Y : c_readBuffer (n_server n) ++ app_data up <> []). { intros Y. apply X. rewrite A, Y. now rewrite app_nil_r. }
  destruct (read_delivers E s G M K _ _ _ _ _ _ _ _ _ _ _ D O Hk NB Y Ht H) as [(d & ->)|Q]; [left|right; exact Q].
  destruct (read_ok E s G M K _ _ _ _ _ _ _ _ _ _ _ _ D H) as (done & todo & back & -> & Kk & Hne). destruct Kk as (_ & _ & Kk); [discriminate|].
  exists d. split; [reflexivity|]. split; [auto|]. exists (c_readBuffer c' ++ app_data todo). rewrite A, app_data_app.
  f_equal. rewrite app_assoc, Kk. now rewrite <- app_assoc.
Qed.
Theorem C36_delivered : forall E s n0 up0 down0 t n,
  gcm_ok E -> mac_sized (v_prims E) -> cipherSuiteMap (s_id s) = Some s ->
  linked E s n0 up0 down0 -> run E n0 t n -> n_up n = [] -> l_out (c_out (n_client n)) = [] ->
  cf_nonBlocking (c_cfg (n_server n)) = false ->
  c_readBuffer (n_server n0) ++ app_data up0 ++ wrote_c t <> got_s t ->
  exists turns, forall fuel os k c' r, (turns <= List.length os)%nat -> (0 < k)%nat -> read E fuel os (n_server n) k = (c', r) ->
    (exists d, r = Ok d /\ d <> [] /\ exists more, c_readBuffer (n_server n0) ++ app_data up0 ++ wrote_c t = got_s t ++ d ++ more) \/ r = Panic /\ spent c'.
Proof. exact read_gives. Qed.
Print Assumptions C36_delivered.
Lemma read_gives_client E s n0 up0 down0 t n : gcm_ok E -> mac_sized (v_prims E) -> cipherSuiteMap (s_id s) = Some s ->
  linked E s n0 up0 down0 -> run E n0 t n -> n_down n = [] -> l_out (c_out (n_server n)) = [] ->
  cf_nonBlocking (c_cfg (n_client n)) = false ->
  c_readBuffer (n_client n0) ++ app_data down0 ++ wrote_s t <> got_c t ->
  exists turns, forall fuel os k c' r, (turns <= List.length os)%nat -> (0 < k)%nat -> read E fuel os (n_client n) k = (c', r) ->
    (exists d, r = Ok d /\ d <> [] /\ exists more, c_readBuffer (n_client n0) ++ app_data down0 ++ wrote_s t = got_c t ++ d ++ more) \/ r = Panic /\ spent c'.
Proof.
  intros G M K L R U O NB X. destruct (run_ok E s G M K _ _ _ _ _ L R) as (up & down & Ln & _ & A). apply linked_client in Ln as [D _].
  unfold at_client in D. rewrite U in D. exists (List.length (l_in (c_in (n_client n))) + List.length down)%nat. intros fuel os k c' r Ht Hk H.
  assert (Y : c_readBuffer (n_client n) ++ app_data down <> []). { intros Y. apply X. rewrite A, Y. now rewrite app_nil_r. }
  destruct (read_delivers E s G M K _ _ _ _ _ _ _ _ _ _ _ D O Hk NB Y Ht H) as [(d & ->)|Q]; [left|right; exact Q].
  destruct (read_ok E s G M K _ _ _ _ _ _ _ _ _ _ _ _ D H) as (done & todo & back & -> & Kk & Hne). destruct Kk as (_ & _ & Kk); [discriminate|].
  exists d. split; [reflexivity|]. split; [auto|]. exists (c_readBuffer c' ++ app_data todo). rewrite A, app_data_app.
  f_equal. rewrite app_assoc, Kk. now rewrite <- app_assoc.
Qed.
Theorem C36_delivered_client : forall E s n0 up0 down0 t n,
  gcm_ok E -> mac_sized (v_prims E) -> cipherSuiteMap (s_id s) = Some s ->
  linked E s n0 up0 down0 -> run E n0 t n -> n_down n = [] -> l_out (c_out (n_server n)) = [] ->
  cf_nonBlocking (c_cfg (n_client n)) = false ->
  c_readBuffer (n_client n0) ++ app_data down0 ++ wrote_s t <> got_c t ->
  exists turns, forall fuel os k c' r, (turns <= List.length os)%nat -> (0 < k)%nat -> read E fuel os (n_client n) k = (c', r) ->
    (exists d, r = Ok d /\ d <> [] /\ exists more, c_readBuffer (n_client n0) ++ app_data down0 ++ wrote_s t = got_c t ++ d ++ more) \/ r = Panic /\ spent c'.
Proof. exact read_gives_client. Qed.
Print Assumptions C36_delivered_client.

(** ** Examples *)

(** A pair that has completed a handshake, with the server's session ticket not yet read by the client. *)
Definition ticket_config : config :=
  mkCfg toy_name true 100 16 50 false false None None None false None None false [toy_cert] None [] [P256] [] [] (Some 1) [] false false None.
Definition pair_run := joint 12 1 (pair_of ticket_config ticket_config [] []).
Definition pair0 : net := mkNet (fst (fst pair_run)) (snd (fst pair_run)) [] [].
Definition pair_suite : suite := mkSuite TLS_AES_128_GCM_SHA256 SHA256 16 12.
Definition pair_ticket_body : bytes := firstn 53 (skipn 9 (rl_data (c_in (n_client pair0)))).
Definition pair_ticket : ticket := match toBody (x_parses (v_pki toy_env)) x04 pair_ticket_body with Ok (BNewSessionTicket t) => t | _ => mkTkt 0 0 [] [] [] end.
Lemma toy_gcm_ok : gcm_ok toy_env.
Proof. intros key. split; [apply toy_ok|]. cbn. lia. Qed.
Ltac nf := vm_compute; reflexivity.
Lemma pair_client : end_ok pair_suite true (n_client pair0).
Proof. split; try nf. intros Q. vm_compute in Q. discriminate Q. Qed.
Lemma pair_server : end_ok pair_suite false (n_server pair0).
Proof. split; try nf. intros Q. vm_compute in Q. discriminate Q. Qed.

Lemma reader_server : reader_ok (c_in (n_server pair0)).
Proof.
  split; [split; [nf|split; [split; [nf|split; [nf|split; [vm_compute; lia|vm_compute; discriminate]]]|]]|split; [nf|split; [nf|vm_compute; lia]]].
  vm_compute. repeat constructor; eauto.
Qed.
Lemma reader_client : reader_ok (c_in (n_client pair0)).
Proof.
  split; [split; [nf|split; [split; [nf|split; [nf|split; [vm_compute; lia|vm_compute; discriminate]]]|]]|split; [nf|split; [nf|vm_compute; lia]]].
  vm_compute. repeat constructor; eauto.
Qed.
Definition key_of (sec : bytes) : byte := hd x00 (k_key (makeTrafficKeys (v_prims toy_env) pair_suite sec)).
Lemma writer_client : writer_ok (c_out (n_client pair0)).
Proof.
  split; [nf|]. split; [nf|]. split; [vm_compute; lia|]. split; [|vm_compute; lia]. exists (toy (key_of (write_secret true (n_client pair0)))).
  split; [nf|]. split; [apply toy_ok|cbn; lia].
Qed.
Lemma writer_server : writer_ok (c_out (n_server pair0)).
Proof.
  split; [nf|]. split; [nf|]. split; [vm_compute; lia|]. split; [|vm_compute; lia]. exists (toy (key_of (write_secret false (n_server pair0)))).
  split; [nf|]. split; [apply toy_ok|cbn; lia].
Qed.
Lemma flow_up : flow toy_env pair_suite true (l_core (c_in (n_server pair0))) (read_secret false (n_server pair0))
  (rl_data (c_in (n_server pair0)) ++ n_up pair0 ++ concat (l_out (c_out (n_client pair0)))) [] (l_core (c_out (n_client pair0))) (write_secret true (n_client pair0)).
Proof.
  replace (rl_data (c_in (n_server pair0)) ++ n_up pair0 ++ concat (l_out (c_out (n_client pair0)))) with (@nil byte) by nf.
  replace (read_secret false (n_server pair0)) with (write_secret true (n_client pair0)) by nf. apply flow_nil. split; [nf|]. split; nf.
Qed.
(** Opening the ticket. *)
Definition ticket_record : bytes := rl_data (c_in (n_client pair0)).
Definition opened_pt : plaintext := mkPt x16 3 0 ([x04] ++ be 3 (len pair_ticket_body) ++ pair_ticket_body).
Lemma flow_one E s fc r sec data hdr body pt i w : first_frame (recordFraming false) data = Some (Ok (hdr, body), []) -> snd (handleFrame r false hdr body) = Ok pt ->
  carries E fc i pt -> in_step (cur w) (cur (core_after E s fc i (fst (handleFrame r false hdr body)) sec)) -> flow E s fc r sec data [i] w (secret_after E s fc i sec).
Proof.
  intros F H C I. destruct (handleFrame r false hdr body) as [core x] eqn:Q. cbn [fst snd] in *. subst x. eapply flow_cons; [exact F|exact Q|exact C|]. now constructor.
Qed.
Lemma flow_down : flow toy_env pair_suite false (l_core (c_in (n_client pair0))) (read_secret true (n_client pair0))
  (rl_data (c_in (n_client pair0)) ++ n_down pair0 ++ concat (l_out (c_out (n_server pair0)))) [Ticket pair_ticket pair_ticket_body]
  (l_core (c_out (n_server pair0))) (write_secret false (n_server pair0)).
Proof.
  replace (rl_data (c_in (n_client pair0)) ++ n_down pair0 ++ concat (l_out (c_out (n_server pair0)))) with ticket_record by nf.
  replace (write_secret false (n_server pair0)) with (secret_after toy_env pair_suite false (Ticket pair_ticket pair_ticket_body) (read_secret true (n_client pair0))) by nf.
  apply flow_one with (hdr := firstn 5 ticket_record) (body := skipn 5 ticket_record) (pt := opened_pt).
  - nf.
  - nf.
  - split; [reflexivity|]. split; [reflexivity|]. split; [nf|]. split; [nf|reflexivity].
  - split; [nf|]. split; nf.
Qed.
Lemma pair_linked : linked toy_env pair_suite pair0 [] [Ticket pair_ticket pair_ticket_body].
Proof.
  split; [exact pair_client|]. split; [exact pair_server|]. split.
  - split; [exact writer_client|]. split; [exact reader_server|exact flow_up].
  - split; [exact writer_server|]. split; [exact reader_client|exact flow_down].
Qed.

(** Scripts: a run as a function. *)
Inductive op := Write (b : bytes) | Read (n : nat) | KeyUpd (b : bool) | Take | Deliver (n : nat).
Definition perform (client : bool) (o : op) (n : net) : option (net * (bytes * bytes)) :=
  let c := if client then n_client n else n_server n in
  let put c' := if client then mkNet c' (n_server n) (n_up n) (n_down n) else mkNet (n_client n) c' (n_up n) (n_down n) in
  match o with
  | Write b => match write c b with (c', (k, r)) => match r with Panic => None | _ => Some (put c', (firstn k b, [])) end end
  | Read k => match read toy_env 20 (toy_oracles 700 8) c k with (c', r) => match r with Panic => None | _ => Some (put c', ([], match r with Ok d => d | _ => [] end)) end end
  | KeyUpd b => match sendKeyUpdate toy_env (toy_oracle 800) c b with (c', r) => match r with Panic => None | _ => Some (put c', ([], [])) end end
  | Take => Some (if client then mkNet (taken (n_client n)) (n_server n) (n_up n ++ concat (l_out (c_out (n_client n)))) (n_down n)
                  else mkNet (n_client n) (taken (n_server n)) (n_up n) (n_down n ++ concat (l_out (c_out (n_server n)))), ([], []))
  | Deliver k => Some (if client then mkNet (arrives (n_client n) [RBytes (firstn k (n_down n))]) (n_server n) (n_up n) (skipn k (n_down n))
                       else mkNet (n_client n) (arrives (n_server n) [RBytes (firstn k (n_up n))]) (skipn k (n_up n)) (n_down n), ([], []))
  end.
Fixpoint script (l : list (bool * op)) (x : traffic * net) : option (traffic * net) :=
  match l with
  | [] => Some x
  | (client, o) :: l =>
      match perform client o (snd x) with
      | None => None
      | Some (n, (w, g)) =>
          let t := fst x in
          script l (if client then mkTr (wrote_c t ++ w) (got_c t ++ g) (wrote_s t) (got_s t) else mkTr (wrote_c t) (got_c t) (wrote_s t ++ w) (got_s t ++ g), n)
      end
  end.
Lemma traffic_eta t : mkTr (wrote_c t ++ []) (got_c t ++ []) (wrote_s t) (got_s t) = t.
Proof. destruct t. cbn. now rewrite !app_nil_r. Qed.
Lemma traffic_eta' t : mkTr (wrote_c t) (got_c t) (wrote_s t ++ []) (got_s t ++ []) = t.
Proof. destruct t. cbn. now rewrite !app_nil_r. Qed.
Lemma perform_run n0 t n client o n' w g : run toy_env n0 t n -> perform client o n = Some (n', (w, g)) ->
  run toy_env n0 (if client then mkTr (wrote_c t ++ w) (got_c t ++ g) (wrote_s t) (got_s t) else mkTr (wrote_c t) (got_c t) (wrote_s t ++ w) (got_s t ++ g)) n'.
Proof.
  intros R H. assert (Cl : (exists c', call_of toy_env (if client then n_client n else n_server n) w g c' /\
     n' = if client then mkNet c' (n_server n) (n_up n) (n_down n) else mkNet (n_client n) c' (n_up n) (n_down n)) \/ (o = Take \/ exists k, o = Deliver k)).
  { destruct o as [b|k|b| |k]; eauto; left; unfold perform in H.
    - destruct (write _ b) as [c' [k r]] eqn:Q. exists c'. destruct r; try discriminate; injection H as <- <- <-; (split; [eapply co_write; [exact Q|discriminate]|reflexivity]).
    - destruct (read _ _ _ _ k) as [c' r] eqn:Q. exists c'. destruct r as [d|e| |]; try discriminate; injection H as <- <- <-; (split; [|reflexivity]).
      + eapply (co_read toy_env _ _ _ _ _ (Ok d)); [exact Q|discriminate].
      + eapply (co_read toy_env _ _ _ _ _ (Err e)); [exact Q|discriminate].
      + eapply (co_read toy_env _ _ _ _ _ Fuel); [exact Q|discriminate].
    - destruct (sendKeyUpdate _ _ _ b) as [c' r] eqn:Q. exists c'. destruct r; try discriminate; injection H as <- <- <-; (split; [eapply co_update; [exact Q|discriminate]|reflexivity]). }
  destruct Cl as [(c' & C & ->)|[->|(k & ->)]].
  - destruct client; [apply run_client|apply run_server]; auto.
  - unfold perform in H. destruct client; injection H as <- <- <-; rewrite ?traffic_eta, ?traffic_eta'; constructor; exact R.
  - unfold perform in H. destruct client; injection H as <- <- <-; rewrite ?traffic_eta, ?traffic_eta'; [apply run_deliver_client|apply run_deliver_server]; auto; symmetry; apply firstn_skipn.
Qed.
Lemma script_run n0 l : forall t n t' n', run toy_env n0 t n -> script l (t, n) = Some (t', n') -> run toy_env n0 t' n'.
Proof.
  induction l as [|[client o] l IH]; intros t n t' n' R H; cbn [script fst snd] in H; [injection H as <- <-; exact R|].
  destruct (perform client o n) as [[n1 [w g]]|] eqn:P; [|discriminate]. eapply IH; [|exact H]. eapply perform_run; eauto.
Qed.

(** The client writes, asks for an update in the middle and writes again; the server writes and updates its own keys before it reads; pieces arrive cut in
    the middle of records; small read buffers are used. *)
Definition story : list (bool * op) :=
  [(true, Write (str "hello ")); (true, KeyUpd true); (true, Write (str "world")); (true, Take);
   (false, Write (str "greetings")); (false, KeyUpd false); (false, Write (str " and more")); (false, Take);
   (false, Deliver 7); (false, Read 3); (false, Deliver 20); (false, Read 4); (false, Deliver 1000); (false, Read 4); (false, Read 100); (false, Read 100);
   (false, Write (str "!")); (false, Take);
   (true, Deliver 10); (true, Read 2); (true, Deliver 1000); (true, Read 5); (true, Read 50); (true, Read 50); (true, Read 50)].
Lemma told l t (q : net -> bool) : match script l (mkTr [] [] [] [], pair0) with Some (t', n) => t' = t /\ q n = true | None => False end ->
  exists n, run toy_env pair0 t n /\ q n = true.
Proof.
  destruct (script l (mkTr [] [] [] [], pair0)) as [[t' n]|] eqn:S; [|contradiction]. intros [<- Q]. exists n. split; [|exact Q]. eapply script_run; [apply run_new|exact S].
Qed.
Definition empty {A} (l : list A) : bool := match l with [] => true | _ => false end.
Lemma empty_ok {A} (l : list A) : empty l = true -> l = [].
Proof. destruct l; [reflexivity|discriminate]. Qed.
(** All that the client has written has reached the server's read buffer or its input. *)
Definition up_done (n : net) : bool := empty (l_out (c_out (n_client n))) && empty (n_up n) && negb (cf_nonBlocking (c_cfg (n_server n))).
Definition drained (n : net) : bool := empty (rl_data (c_in (n_server n))) && empty (c_readBuffer (n_server n)).
Example C47_example : gcm_ok toy_env /\ mac_sized (v_prims toy_env) /\ cipherSuiteMap (s_id pair_suite) = Some pair_suite /\
  linked toy_env pair_suite pair0 [] [Ticket pair_ticket pair_ticket_body] /\
  exists n, run toy_env pair0 (mkTr (str "hello world") (str "greetings and more!") (str "greetings and more!") (str "hello world")) n /\
    l_out (c_out (n_client n)) = [] /\ n_up n = [] /\ rl_data (c_in (n_server n)) = [] /\ c_readBuffer (n_server n) = [].
Proof.
  split; [exact toy_gcm_ok|]. split; [exact toy_prims_sized|]. split; [reflexivity|]. split; [exact pair_linked|].
  destruct (told (story ++ [(true, Take); (false, Deliver 100); (false, Read 5)])
    (mkTr (str "hello world") (str "greetings and more!") (str "greetings and more!") (str "hello world")) (fun n => up_done n && drained n)) as (n & R & Q).
  { vm_compute. split; reflexivity. }
  unfold up_done, drained in Q. rewrite !andb_true_iff in Q. destruct Q as (((Q1 & Q2) & _) & Q3 & Q4). exists n. split; [exact R|]. repeat split; try (now apply empty_ok); assumption.
Qed.
Example C36_example : gcm_ok toy_env /\ mac_sized (v_prims toy_env) /\ cipherSuiteMap (s_id pair_suite) = Some pair_suite /\
  linked toy_env pair_suite pair0 [] [Ticket pair_ticket pair_ticket_body] /\
  exists n, run toy_env pair0 (mkTr (str "hello world") [] (str "greetings and more") []) n /\
    n_up n = [] /\ l_out (c_out (n_client n)) = [] /\ cf_nonBlocking (c_cfg (n_server n)) = false.
Proof.
  split; [exact toy_gcm_ok|]. split; [exact toy_prims_sized|]. split; [reflexivity|]. split; [exact pair_linked|].
  destruct (told (firstn 8 story ++ [(false, Deliver 7); (false, Deliver 1000)]) (mkTr (str "hello world") [] (str "greetings and more") []) up_done) as (n & R & Q).
  { vm_compute. split; reflexivity. }
  unfold up_done in Q. rewrite !andb_true_iff in Q. destruct Q as ((Q1 & Q2) & Q3). exists n. split; [exact R|]. apply negb_true_iff in Q3. repeat split; try (now apply empty_ok); assumption.
Qed.
(** The same pair after as many key updates in each direction as the script asks for: reads still return the data. *)
Example C36_case : match script (concat (repeat [(true, KeyUpd true); (false, KeyUpd true); (true, Write (str "ping")); (true, Take); (false, Deliver 1000); (false, Read 10);
    (false, Write (str "pong")); (false, Take); (true, Deliver 1000); (true, Read 10)] 3)) (mkTr [] [] [] [], pair0) with
  Some (t, _) => got_s t = str "pingpingping" /\ got_c t = str "pongpongpong" | None => False end.
Proof. vm_compute. split; reflexivity. Qed.
