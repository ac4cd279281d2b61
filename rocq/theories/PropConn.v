(** Properties C48, C49, C50 and C53: the connection's interface. *)
From Verif Require Import Base Frame FrameProofs Record RecordSpec RecordProofs2 Timer Handshake Crypto Messages Pki Negotiation Machine MachineProofs Conn ConnSpec ConnProofs PropRecord Toy.

(** Two connections that have completed a handshake with each other. *)
Definition full_run := joint 12 1 (pair_of toy_config toy_config [] []).
Definition toy_client : conn := fst (fst full_run).
Definition toy_server : conn := snd (fst full_run).
Lemma toy_client_used : used toy_env (newConn toy_config [] true []) toy_client.
Proof. exact (proj1 (used_joint 12 1 (pair_of toy_config toy_config [] []))). Qed.
Lemma toy_server_used : used toy_env (newConn toy_config [] false []) toy_server.
Proof. exact (proj2 (used_joint 12 1 (pair_of toy_config toy_config [] []))). Qed.
Lemma toy_client_connected : is_connected toy_client = true.
Proof. vm_compute. reflexivity. Qed.
Lemma toy_server_connected : is_connected toy_server = true.
Proof. vm_compute. reflexivity. Qed.

(** ** C48 *)

(** A connection ready for writing: established, with a key that is an AEAD and record numbers left. *)
Definition ready (c : conn) (k : aead) : Prop :=
  is_connected c = true /\ c_aead (cur (l_core (c_out c))) = Some k /\ aead_ok k /\ c_seq (cur (l_core (c_out c))) < 2 ^ 48 - 1 /\
  (8 <= List.length (c_iv (cur (l_core (c_out c)))))%nat /\ r_dir (l_core (c_out c)) = DirWrite /\ version_ok (l_core (c_out c)).

(** Writing 2^14 bytes fails with nothing sent. *)
Theorem C48_write_refuted : exists (c : conn) (k : aead) (b : bytes) (e : err),
  ready c k /\ len b = 2 ^ 14 /\ write c b = (c, (0%nat, Err e)).
Proof.
  exists toy_client, (toy x00), (repeat x01 (N.to_nat 16384)). eexists. split; [|split].
  - split; [exact toy_client_connected|]. split; [vm_compute; reflexivity|]. split; [apply toy_ok|].
    split; [vm_compute; reflexivity|]. split; [vm_compute; lia|]. split; [vm_compute; reflexivity|]. vm_compute. discriminate.
  - vm_compute. reflexivity.
  - vm_compute. reflexivity.
Qed.
Print Assumptions C48_write_refuted.
(** Full statement: [forall c k b, ready c k -> exists c', write c b = (c', (List.length b, Ok tt))], with the bytes of
    [b] in records of at most 2^14 bytes. What holds: a buffer whose protected form fits one record is sent whole, as
    one application data record; any longer one is refused with nothing sent. *)
Lemma write_exact c k b : ready c k ->
  (b = [] -> write c b = (c, (0%nat, Ok tt))) /\
  (b <> [] -> len b + 1 + N.of_nat (overhead k) <= 2 ^ 14 ->
     exists c', write c b = (c', (List.length b, Ok tt)) /\ writes (c_out c) [mkMsg rtApplicationData b 0] = (c_out c', Ok tt) /\
       cframe c c' /\ c_in c' = c_in c) /\
  (2 ^ 14 < len b + 1 + N.of_nat (overhead k) -> (overhead k < N.to_nat (2 ^ 14))%nat -> exists e, write c b = (c, (0%nat, Err e))).
Proof.
  intros (Hc & Hk & Ka & Hs & Hi & Hd & Hv). unfold write, writable. rewrite Hc. cbn [orb negb].
  assert (forall p, c_out (upd_out c p) = p) as Eo by reflexivity.
  assert (upd_out c (c_out c) = c) as Er.
  { destruct c as [[cf ps x e h] ? ? ? ? ? ?]. unfold upd_out, upd_ctx, set_world, set_ctx, c_out, c_ctx, set_out, set_conn. cbn. destruct x as [i o' ? ? ? ?]. destruct o'. reflexivity. }
  split; [intros ->; reflexivity|]. split.
  - intros Hb Hf. destruct b as [|y b]; [contradiction|]. set (bb := y :: b) in *.
    assert (List.length bb <= N.to_nat maxFragmentLen)%nat as Hl by (unfold len in Hf; change (2 ^ 14) with maxFragmentLen in Hf; lia).
    change (List.length bb) with (S (List.length b)) at 1. cbn [write_loop]. fold bb.
    assert (Nat.min (N.to_nat maxFragmentLen) (List.length bb) = List.length bb) as -> by lia.
    rewrite firstn_all, skipn_all.
    destruct (proj1 (write_protected (c_out c) (mkPt rtApplicationData 0 0 bb) _ k 0 Hk Ka Hs Hi Hd Hv)) as [l' Hw].
    { cbn [p_fragment]. change (N.of_nat 0) with 0. lia. }
    unfold writeRecord. rewrite Hw. exists (upd_out c l').
    split; [destruct b; reflexivity|]. split; [|split; [apply cframe_out, cframe_refl|reflexivity]].
    cbn [writes m_type m_content m_pad]. rewrite Hw. reflexivity.
  - intros Hf Ho. destruct b as [|y b].
    { exfalso. unfold len in Hf. cbn [List.length] in Hf. change (2 ^ 14) with maxFragmentLen in *. assert (1 <= maxFragmentLen) by (vm_compute; discriminate). lia. }
    set (bb := y :: b) in *.
    change (List.length bb) with (S (List.length b)) at 1. cbn [write_loop]. fold bb.
    set (n := Nat.min (N.to_nat maxFragmentLen) (List.length bb)).
    destruct (proj2 (write_protected (c_out c) (mkPt rtApplicationData 0 0 (firstn n bb)) _ k 0 Hk Ka Hs Hi Hd Hv)) as [e Hw].
    { cbn [p_fragment]. change (N.of_nat 0) with 0. unfold len. rewrite firstn_length. unfold n, len in *. change (2 ^ 14) with maxFragmentLen in *. lia. }
    unfold writeRecord. rewrite Hw, Er. exists e. reflexivity.
Qed.
Theorem C48_write_partial : forall (c : conn) (k : aead) (b : bytes), ready c k -> (overhead k < N.to_nat (2 ^ 14))%nat ->
  (b = [] -> write c b = (c, (0%nat, Ok tt))) /\
  (b <> [] -> len b + 1 + N.of_nat (overhead k) <= 2 ^ 14 ->
     exists c', write c b = (c', (List.length b, Ok tt)) /\ writes (c_out c) [mkMsg rtApplicationData b 0] = (c_out c', Ok tt)) /\
  (2 ^ 14 < len b + 1 + N.of_nat (overhead k) -> exists e, write c b = (c, (0%nat, Err e))).
Proof.
  intros c k b H Ho. destruct (write_exact c k b H) as (A & B & C). split; [exact A|]. split; [|auto].
  intros Hb Hf. destruct (B Hb Hf) as (c' & W & V & _). eauto.
Qed.
Print Assumptions C48_write_partial.
Example C48_case : ready toy_client (toy x00) /\
  let '(c, (n, r)) := write toy_client (str "hello") in n = 5%nat /\ r = Ok tt /\ List.length (concat (l_out (c_out c))) = 12%nat.
Proof.
  split; [|vm_compute; auto].
  split; [exact toy_client_connected|]. split; [vm_compute; reflexivity|]. split; [apply toy_ok|].
  split; [vm_compute; reflexivity|]. split; [vm_compute; lia|]. split; [vm_compute; reflexivity|]. vm_compute. discriminate.
Qed.

(** ** C49 *)

(** An alert and what the peer's [Read] makes of it. *)
Definition sent_alert (a : N) : res bytes :=
  let '(c, s) := transfer (fst (sendAlert toy_client a)) toy_server in snd (read toy_env 20 (toy_oracles 700 3) s 10).
(** handshake_failure arrives as the end of the stream, and so does record_overflow; close_notify is answered with an
    unexpected_message alert. *)
Theorem C49_alert_refuted : exists a : N, a < 256 /\ sent_alert a <> Err (EAlert a) /\ sent_alert a = Err EOF.
Proof. exists AlertHandshakeFailure. split; [reflexivity|]. split; [vm_compute; discriminate|vm_compute; reflexivity]. Qed.
Print Assumptions C49_alert_refuted.
Lemma close_out c : l_out (c_out (close c)) = l_out (c_out c).
Proof. reflexivity. Qed.
(** Close sends nothing: the peer's Read would block. *)
Theorem C49_close_refuted : exists c s : conn,
  used toy_env (newConn toy_config [] true []) c /\ used toy_env (newConn toy_config [] false []) s /\ is_connected c = true /\ is_connected s = true /\
  l_out (c_out (close c)) = l_out (c_out c) /\
  snd (read toy_env 20 (toy_oracles 700 3) (snd (transfer (close c) s)) 10) = Err WouldBlock.
Proof.
  exists toy_client, toy_server. split; [apply toy_client_used|]. split; [apply toy_server_used|]. split; [exact toy_client_connected|]. split; [exact toy_server_connected|].
  split; [apply close_out|]. vm_compute. reflexivity.
Qed.
Print Assumptions C49_close_refuted.

(** Full statement: what [sendAlert] writes is understood by the peer's [Read] as the same alert (close_notify as the end
    of the stream). What holds: a record with the level before the description, as RFC 8446 section 6 has it, is
    understood; but [sendAlert] writes the description first, so that nothing but the values 1 and 2 is taken for an
    alert by the peer. *)
Theorem C49_alert_partial : forall (E : env) (o : oracle) (c : conn) (l : rlayer) (ty : byte) (epoch seq : N) (level description : byte),
  ty = x15 -> readRecord (c_in c) = (l, Ok (mkPt ty epoch seq [level; description])) ->
  snd (consumeRecord E o c) =
    (if bN description =? 0 then Err EOF
     else if bN level =? 1 then Ok tt
     else if bN level =? 2 then Err (EAlert (bN description))
     else snd (fail_eof (A := unit) (upd_in c l) 10)).
Proof.
  intros E o c l ty epoch seq level description -> H. unfold consumeRecord. rewrite H. cbn [sbind p_type p_fragment].
  change (Byte.eqb x15 rtHandshake) with false. change (Byte.eqb x15 rtAlert) with true. cbv iota.
  unfold AlertCloseNotify, AlertLevelWarning, AlertLevelError, alert.
  destruct (_ =? _); [reflexivity|]. destruct (_ =? _); [reflexivity|]. destruct (_ =? _); reflexivity.
Qed.
Print Assumptions C49_alert_partial.
Example C49_case :
  let s := arrives toy_server [RBytes (map b8 [23;3;3;0;4;2;40;21;0])] in
  snd (readRecord (c_in s)) = Ok (mkPt x15 3 0 [x02; x28]) /\ snd (read toy_env 20 (toy_oracles 700 3) s 10) = Err (EAlert 40).
Proof. split; vm_compute; reflexivity. Qed.
(** The end of the transport's stream is reported as the end of the data. *)
Theorem C49_end_partial : forall (E : env) (fuel : nat) (o : oracle) (os : list oracle) (c : conn) (rest : list rin) (n : nat),
  is_connected c = true -> c_complete c = true -> cf_useDTLS (c_cfg c) = false -> c_readBuffer c = [] -> (0 < n)%nat ->
  l_cached (c_in c) = None -> (0 < needed (l_frame (c_in c)))%nat -> l_in (c_in c) = RError EOF :: rest ->
  snd (read E fuel (o :: os) c n) = Err EOF.
Proof.
  intros E fuel o os c rest n Hc Hd Hu Hb Hn Hk Hf Hi. unfold read. rewrite Hc. cbn [negb]. rewrite handshake_complete by exact Hd. cbn [sbind].
  destruct (Nat.eqb_spec n 0); [lia|]. rewrite Hu. cbn [sbind read_loop]. rewrite Hb.
  unfold consumeRecord, readRecord, readRecordE, nextRecord. rewrite Hk, Hi.
  unfold nextFrame. cbn [nextFrame_loop]. apply Nat.ltb_lt in Hf. rewrite Hf. cbn [sbind snd is_wb negb orb EOF]. rewrite orb_true_r. reflexivity.
Qed.
Print Assumptions C49_end_partial.
Example C49_end_case : let s := arrives toy_server [RError EOF] in
  is_connected s = true /\ l_in (c_in s) = [RError EOF] /\ needed (l_frame (c_in s)) = 5%nat /\ snd (read toy_env 20 (toy_oracles 700 3) s 10) = Err EOF.
Proof. vm_compute. repeat split. Qed.

(** ** C50 *)

(** A client is sent a message it does not accept: [Handshake] returns unexpected_message. Called again when the
    server's messages arrive, it completes. *)
Definition broken : conn * conn :=
  let '(c, s) := fst (joint 1 1 (pair_of toy_config toy_config [] [])) in (arrives c [RBytes (map b8 [22;3;3;0;4;20;0;0;0])], s).
Definition broken_run := joint 12 100 broken.
Lemma joint_first n seed p : used toy_env (fst (handshake toy_env 20 (toy_oracles seed 2) (fst p))) (fst (fst (joint (S n) seed p))).
Proof.
  destruct p as [a b]. cbn [joint]. unfold both, transfer. cbn [fst].
  destruct (handshake toy_env 20 (toy_oracles seed 2) a) as [a1 ra].
  set (b1 := arrives b _). destruct (handshake toy_env 20 (toy_oracles (seed + 500) 2) b1) as [b2 rb].
  set (a2 := arrives (taken a1) _). pose proof (proj1 (used_joint n (seed + 10) (a2, taken b2))) as U.
  destruct (joint n (seed + 10) (a2, taken b2)) as [[a3 b3] rs]. cbn [fst snd] in *.
  eapply used_trans; [|exact U]. eapply used_more; [eapply used_more; [constructor|apply api_output]|apply api_input].
Qed.
Theorem C50_refuted : exists c c' : conn,
  used toy_env (newConn toy_config [] true []) c /\
  snd (handshake toy_env 20 (toy_oracles 100 2) c) = Err (EAlert AlertUnexpectedMessage) /\
  used toy_env (fst (handshake toy_env 20 (toy_oracles 100 2) c)) c' /\ is_connected c' = true.
Proof.
  exists (fst broken), (fst (fst broken_run)). split; [|split; [vm_compute; reflexivity|split; [|vm_compute; reflexivity]]].
  - unfold broken. pose proof (proj1 (used_joint 1 1 (pair_of toy_config toy_config [] []))) as U.
    destruct (fst (joint 1 1 _)) as [c s]. eapply used_more; [exact U|apply api_input].
  - apply (joint_first 11 100 broken).
Qed.
Print Assumptions C50_refuted.

(** Full statement: [snd (handshake E fuel os c) = Err e], [e] fatal, and [used E (fst (handshake E fuel os c)) c'] imply
    [is_connected c' = false]. What holds: a call that returns an error other than AlertStatelessRetry leaves the
    connection unusable until it is called again, unless it is a server's whose handshake completed and whose session
    ticket could not be sent. *)
Theorem C50_partial : forall (E : env) (fuel : nat) (os : list oracle) (cfg : config) (psks : cache) (client : bool) (input : list rin) (c c' : conn) (e : err),
  used E (newConn cfg psks client input) c -> handshake E fuel os c = (c', Err e) -> e <> EAlert 253 ->
  c_complete c' = true -> cf_sendSessionTickets cfg = true /\ client = false.
Proof. exact handshake_failed. Qed.
Print Assumptions C50_partial.
Example C50_case : snd (handshake toy_env 20 (toy_oracles 100 2) (fst broken)) = Err (EAlert 10) /\
  c_complete (fst (handshake toy_env 20 (toy_oracles 100 2) (fst broken))) = false.
Proof. split; vm_compute; reflexivity. Qed.

(** ** C53 *)

(** Before completion: nothing is written except by a client, configured for early data, whose output is protected with
    the early data key (epoch 1). *)
Theorem C53_write : forall (E : env) (cfg : config) (psks : cache) (client : bool) (input : list rin) (c : conn) (b : bytes),
  used E (newConn cfg psks client input) c -> c_complete c = false ->
  (exists e, write c b = (c, (0%nat, Err e))) \/ (client = true /\ cf_allowEarlyData cfg = true /\ rl_epoch (l_core (c_out c)) = 1).
Proof. exact incomplete_write. Qed.
Print Assumptions C53_write.
(** Nothing is read except by a server configured for early data, and then it is what is next of the early data received. *)
Theorem C53_read : forall (E : env) (cfg : config) (psks : cache) (client : bool) (input : list rin) (c : conn) (fuel : nat) (os : list oracle) (n : nat) (c' : conn) (r : res bytes),
  used E (newConn cfg psks client input) c -> c_complete c = false -> read E fuel os c n = (c', r) ->
  (c' = c /\ is_err r) \/
  (client = false /\ cf_allowEarlyData cfg = true /\ exists d rest, r = Ok d /\ w_early (c_world c) = d ++ rest /\ (List.length d <= n)%nat /\
     c' = set_world c (set_early (c_world c) rest)).
Proof. exact incomplete_read. Qed.
Print Assumptions C53_read.
(** Exporters and key updates are refused. *)
Theorem C53_rest : forall (E : env) (cfg : config) (psks : cache) (client : bool) (input : list rin) (c : conn) (o : oracle) (b : bool) (label context : bytes) (n : nat),
  used E (newConn cfg psks client input) c -> c_complete c = false ->
  is_err (computeExporter E c label context n) /\ exists e, sendKeyUpdate E o c b = (c, Err e).
Proof. exact incomplete_rest. Qed.
Print Assumptions C53_rest.
(** A client that may send early data and has not heard from the server; a server that received some. *)
Definition early_pair : conn * conn :=
  let '(c, s) := pair_of psk_config psk_config client_psks server_psks in
  let '(c, _) := handshake toy_env 20 (toy_oracles 1 2) c in
  let '(c, _) := write c (str "early") in
  let '(c, s) := transfer c s in
  let '(s, _) := handshake toy_env 20 (toy_oracles 500 2) s in
  let '(s, _) := handshake toy_env 20 (toy_oracles 510 2) s in
  let '(s, _) := handshake toy_env 20 (toy_oracles 520 2) s in (c, s).
Example C53_case :
  c_complete (fst early_pair) = false /\ rl_epoch (l_core (c_out (fst early_pair))) = 1 /\ fst (snd (write (fst early_pair) (str "more"))) = 4%nat /\
  c_complete (snd early_pair) = false /\ snd (read toy_env 20 [] (snd early_pair) 3) = Ok (str "ear") /\
  (let '(c, s) := fst (joint 1 1 (pair_of toy_config toy_config [] [])) in
   fst (snd (write c (str "x"))) = 0%nat /\ snd (read toy_env 20 [] c 3) = Err (EMsg "Read called before the handshake completed")).
Proof. vm_compute. repeat split. Qed.
