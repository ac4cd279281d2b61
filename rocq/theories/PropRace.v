(** Property C72, seen from a connection: what [Write], [Read] and [SendKeyUpdate] do to the output layer, and what [Write] beside one of the others does. *)
From Verif Require Import Base Frame Record RecordSpec Handshake Crypto Messages Negotiation Machine Conn ConnSpec Toy PropRecord PropCrypto PropTrace AgreeSpec ChannelSpec JointSpec CompleteSpec PropChannel PlaySpec PropComplete Threads ThreadSpec PropThreads.

Lemma upd_out_same c : upd_out c (c_out c) = c.
Proof. unfold upd_out, upd_ctx, set_world, set_ctx, c_ctx. destruct c as [w b st hs cm rb cl]. cbn [c_world]. destruct w as [cf ps x ea ha]. cbn [w_ctx w_cfg w_psks w_early w_hash]. unfold c_out, c_ctx. cbn [c_world w_ctx]. destruct x as [xi xo]. cbn. destruct xo; reflexivity. Qed.
Lemma upd_out_twice c a b : upd_out (upd_out c a) b = upd_out c b.
Proof. reflexivity. Qed.
Lemma write_loop_ops fuel : forall c buffer sent, fst (write_loop fuel c buffer sent) = upd_out c (run_ops (c_out c) (map (fun f => BRecord (mkPt rtApplicationData 0 0 f)) (fragments fuel buffer))).
Proof.
  induction fuel as [|fuel IH]; intros c buffer sent; destruct buffer as [|x buffer]; try (symmetry; apply upd_out_same).
  cbn [write_loop fragments map run_ops]. set (n := Nat.min (N.to_nat maxFragmentLen) (List.length (x :: buffer))). destruct (writeRecord (c_out c) (mkPt rtApplicationData 0 0 (firstn n (x :: buffer)))) as [l [[]|e| |]]; try reflexivity.
  rewrite IH, upd_out_twice. reflexivity.
Qed.
Lemma write_does c buffer : writable c = true -> fst (write c buffer) = upd_out c (run_ops (c_out c) (g_ops (write_call buffer))).
Proof. intros W. unfold write. rewrite W. apply write_loop_ops. Qed.

(** [Write] does what [write_call] says: the goroutines of C72 are those of the API. *)
Theorem C72_write : forall c buffer, writable c = true -> fst (write c buffer) = upd_out c (run_ops (c_out c) (g_ops (write_call buffer))).
Proof. exact write_does. Qed.
Print Assumptions C72_write.
(** A [Read] that gets application data leaves the output layer alone, so that C72_serial and C72_writers are about it too. *)
Lemma read_leaves E fuel o os c n : c_complete c = true -> is_connected c = true -> cf_useDTLS (c_cfg c) = false ->
  (c_readBuffer c <> [] \/ exists l pt, readRecord (c_in c) = (l, Ok pt) /\ p_type pt = rtApplicationData /\ p_fragment pt <> []) ->
  c_out (fst (read E fuel (o :: os) c n)) = c_out c.
Proof.
  intros Co Ic Nd H. unfold read, handshake. rewrite Ic, Co. cbn [negb sbind]. destruct (n =? 0)%nat; [reflexivity|]. rewrite Nd. cbn [sbind read_loop].
  destruct (c_readBuffer c) as [|x b] eqn:B; [|reflexivity]. destruct H as [H|(l & pt & R & T & F)]; [congruence|].
  unfold consumeRecord. rewrite R. cbn [sbind]. rewrite T. cbv beta iota delta [Byte.eqb rtHandshake rtAlert rtAck rtApplicationData]. cbn [Byte.to_bits Bool.eqb andb].
  destruct (p_fragment pt) as [|x f]; [congruence|]. assert (c_readBuffer (upd_in c l) = []) as B' by exact B. rewrite B'. destruct os; reflexivity.
Qed.
Theorem C72_read : forall E fuel o os c n, c_complete c = true -> is_connected c = true -> cf_useDTLS (c_cfg c) = false ->
  (c_readBuffer c <> [] \/ exists l pt, readRecord (c_in c) = (l, Ok pt) /\ p_type pt = rtApplicationData /\ p_fragment pt <> []) ->
  c_out (fst (read E fuel (o :: os) c n)) = c_out c.
Proof. exact read_leaves. Qed.
Print Assumptions C72_read.

(** ** A race *)

(** An AEAD that shows nonces of twelve bytes. *)
Definition shown (key : byte) : aead :=
  {| overhead := 13; seal := fun n _ p => firstn 12 (n ++ repeat x00 12) ++ p ++ [key];
     open := fun n a c => if beqb (firstn 12 c) (firstn 12 (n ++ repeat x00 12)) then open (toy key) n a (skipn 12 c) else None |}.
Definition race_env : env := mkEnv toy_prims (ec_pki P256) (fun key => shown (hd x00 key)) (fun n => n).
Definition race_cfg : config := ec_config [toy_cert] [].
Definition race_net : net := match moves race_env plain_moves (fresh_net race_cfg) with Some n => n | None => fresh_net race_cfg end.
(** The server asks for a key update, and what it has sent reaches the client. *)
Definition asking : conn := fst (sendKeyUpdate race_env (toy_oracle 800) (n_server race_net) true).
Definition asked : conn := arrives (n_client race_net) [RBytes (n_down race_net ++ concat (l_out (c_out asking)))].
Definition has_read : conn := fst (read race_env 20 (toy_oracles 700 8) asked 10).
Definition has_updated : conn := fst (sendKeyUpdate race_env (toy_oracle 801) (n_client race_net) false).
(** What both do to the output layer: a KeyUpdate that asks for none, and the next key. *)
Definition update_ops (c : conn) : list op :=
  let k := makeTrafficKeys (v_prims race_env) (sc_suite (c_state c)) (sc_cts (c_state c)) in
  [BRecord (mkPt rtHandshake 0 0 (map b8 [24; 0; 0; 1; 0])); BRekey EpochUpdate (v_gcm race_env (k_key k)) (k_iv k)].
Definition shown_nonce (b : bytes) : bytes := firstn 12 b.
Lemma shown_shows key n a p : List.length n = 12%nat -> shown_nonce (seal (shown key) n a p) = n.
Proof. intros L. unfold shown_nonce. cbn [seal shown]. replace (firstn 12 (n ++ repeat x00 12)) with n by (symmetry; now apply firstn_app_n). now apply firstn_app_n. Qed.
Lemma shown_ok key : aead_ok (shown key).
Proof.
  split; intros n a p; cbn [seal open shown].
  - assert (List.length (firstn 12 (n ++ repeat x00 12)) = 12%nat) as L by (rewrite firstn_length, app_length, repeat_length; lia).
    rewrite firstn_app_n, beqb_refl by now rewrite L. rewrite skipn_app_n by now rewrite L. apply (proj1 (toy_ok key)).
  - rewrite !app_length, firstn_length, app_length, repeat_length. change (overhead (shown key)) with 13%nat. cbn [List.length]. change (list byte) with bytes in *. lia.
Qed.

(** [Write] in one goroutine and [other] in a second: two records that differ are put on the wire with one nonce, under the key that both ends had before. *)
Definition nonce_twice (nonce_of : bytes -> bytes) (l : rlayer) (buffer : bytes) (other : list op) (schedule : list nat) : Prop :=
  let s := run schedule (start l [[write_call buffer]; [mkGo false other]]) in
  r_cipher (l_core (sh_layer s)) = r_cipher (l_core l) /\ exists a b, l_out (sh_layer s) = l_out l ++ [a; b] /\ a <> b /\ nonce_of (skipn 5 a) = nonce_of (skipn 5 b).
(** [other] is what a call does to the output layer. *)
Definition does (c c' : conn) (other : list op) : Prop := let l := run_ops (c_out c) other in
  l_out (c_out c') = l_out l /\ c_seq (cur (l_core (c_out c'))) = c_seq (cur (l_core l)) /\ c_iv (cur (l_core (c_out c'))) = c_iv (cur (l_core l)) /\ c_epoch (cur (l_core (c_out c'))) = c_epoch (cur (l_core l)).
(** The goroutine of [Write] gets as far as the sequence number, then that of the other to the end of its record, then the first to the end of its own. *)
Definition race_schedule : list nat := [0; 0; 0; 1; 1; 1; 1; 1; 1; 1; 0; 0; 0; 0]%nat.

Lemma race_asked : nonce_twice shown_nonce (c_out asked) (str "data") (update_ops has_read) race_schedule.
Proof. split; [nf|]. do 2 eexists. split; [nf|]. split; [intros H; discriminate H|nf]. Qed.
Lemma race_updated : nonce_twice shown_nonce (c_out (n_client race_net)) (str "data") (update_ops has_updated) race_schedule.
Proof. split; [nf|]. do 2 eexists. split; [nf|]. split; [intros H; discriminate H|nf]. Qed.

(** C72 does not hold of [Write] beside [Read]: *)
Theorem C72_read_refuted : exists E c fuel os n other buffer schedule k nonce_of,
  is_connected c = true /\ writable c = true /\ c_aead (cur (l_core (c_out c))) = Some k /\ aead_ok k /\ (forall n a p, List.length n = 12%nat -> nonce_of (seal k n a p) = n) /\
  does c (fst (read E fuel os c n)) other /\ nonce_twice nonce_of (c_out c) buffer other schedule.
Proof.
  exists race_env, asked, 20%nat, (toy_oracles 700 8), 10%nat, (update_ops has_read), (str "data"), race_schedule, (shown x00), shown_nonce.
  split; [nf|]. split; [nf|]. split; [nf|]. split; [apply shown_ok|]. split; [apply shown_shows|]. split; [unfold does; cbv zeta; split; [nf|split; [nf|split; nf]]|exact race_asked].
Qed.
Print Assumptions C72_read_refuted.
(** nor beside [SendKeyUpdate]. *)
Theorem C72_update_refuted : exists E c o req other buffer schedule k nonce_of,
  is_connected c = true /\ writable c = true /\ c_aead (cur (l_core (c_out c))) = Some k /\ aead_ok k /\ (forall n a p, List.length n = 12%nat -> nonce_of (seal k n a p) = n) /\
  does c (fst (sendKeyUpdate E o c req)) other /\ nonce_twice nonce_of (c_out c) buffer other schedule.
Proof.
  exists race_env, (n_client race_net), (toy_oracle 801), false, (update_ops has_updated), (str "data"), race_schedule, (shown x00), shown_nonce.
  split; [nf|]. split; [nf|]. split; [nf|]. split; [apply shown_ok|]. split; [apply shown_shows|]. split; [unfold does; cbv zeta; split; [nf|split; [nf|split; nf]]|exact race_updated].
Qed.
Print Assumptions C72_update_refuted.
(** If [Write] is the first of the two to end, the other end reads its record and not the KeyUpdate. *)
Example C72_peer : let s := run [1; 1; 1; 0; 0; 0; 0; 0; 0; 0; 1; 1; 1; 1]%nat (start (c_out asked) [[write_call (str "data")]; [mkGo false (update_ops has_read)]]) in
  let peer := arrives asking [RBytes (concat (l_out (sh_layer s)))] in let p := read race_env 20 (toy_oracles 700 8) peer 10 in
  snd p = Ok (str "data") /\ snd (read race_env 20 (toy_oracles 700 8) (fst p) 10) = Err EDecrypt.
Proof. split; nf. Qed.
(** The same two calls with the lock held in both: in every interleaving, as one after the other. *)
Example C72_locked_case : let calls := [[write_call (str "data"); write_call (str "more")]; [mkGo true (update_ops has_read)]] in
  orderly calls /\
  let s := run (race_schedule ++ [0; 1; 1; 0; 1; 1; 1; 1; 1; 1; 1; 1; 0; 0; 0; 0; 0; 0; 0; 0; 0; 0; 0]%nat) (start (c_out asked) calls) in
  l_out (sh_layer s) = l_out (serial (c_out asked) [write_call (str "data"); mkGo true (update_ops has_read); write_call (str "more")]) /\ List.length (l_out (sh_layer s)) = 3%nat /\
  NoDup (firstn 2 (nonces shown_nonce (l_out (sh_layer s)))).
Proof.
  split; [repeat (constructor; try (now left))|]. split; [nf|]. split; [nf|].
  assert (firstn 2 (nonces shown_nonce (l_out (sh_layer (run (race_schedule ++ [0; 1; 1; 0; 1; 1; 1; 1; 1; 1; 1; 1; 0; 0; 0; 0; 0; 0; 0; 0; 0; 0; 0]%nat) (start (c_out asked) [[write_call (str "data"); write_call (str "more")]; [mkGo true (update_ops has_read)]]))))) = [repeat x00 12; repeat x00 11 ++ [x01]]) as -> by nf.
  constructor; [intros [H|[]]; discriminate H|]. constructor; [intros []|constructor].
Qed.
(** Three goroutines that write and a fourth that does not, under an AEAD that shows all nonces: two calls are done, a third is in the middle of its record, in which it has sealed but not written. *)
Example C72_writers_case : let l := with_core (newRecordLayer false DirWrite []) (keyed_core false DirWrite 3 toy_open_nonce) in
  let c := get_cs (l_core l) (r_cipher (l_core l)) in
  let calls := [[write_call (str "a")]; map write_call [str "b"; str "c"]; [write_call (str "d")]; [mkGo false []; mkGo false []]] in
  full_duplex calls /\ reveals toy_nonce_of toy_open_nonce /\ r_datagram (l_core l) = false /\ (r_cipher (l_core l) < List.length (r_heap (l_core l)))%nat /\ c_aead c = Some toy_open_nonce /\ c_seq c < 2 ^ 48 /\
  let s := run [2; 3; 0; 1; 3; 2; 0; 2; 3; 1; 2; 2; 2; 2; 2; 1; 0; 1; 1; 0; 1; 1; 1; 1; 1; 0; 0; 1; 2; 0; 0]%nat (start l calls) in
  map (fun b => last b x00) (l_out (sh_layer s)) = [x17; x17] /\ map (fun h => match th_now h with Some (_, _, HasRecord _ _) => 1 | None => 0 | _ => 2 end) (sh_threads s) = [1; 0; 0; 2].
Proof. split; [repeat (constructor; try (left; eexists; reflexivity); try (now right))|]. split; [exact toy_reveals|]. split; [reflexivity|]. split; [vm_compute; lia|]. split; [reflexivity|]. split; [reflexivity|]. cbv zeta. split; nf. Qed.
(** A connection whose next record is application data. *)
Example C72_read_case : let sent := fst (write (n_client race_net) (str "hello")) in let c := arrives (n_server race_net) [RBytes (concat (l_out (c_out sent)))] in
  c_complete c = true /\ is_connected c = true /\ cf_useDTLS (c_cfg c) = false /\ match snd (readRecord (c_in c)) with Ok pt => (p_type pt, p_fragment pt) = (rtApplicationData, str "hello") | _ => False end /\
  snd (read race_env 20 (toy_oracles 700 8) c 10) = Ok (str "hello").
Proof. cbv zeta. split; [nf|]. split; [nf|]. split; [nf|]. split; nf. Qed.
(** A connection that can be written to, and a buffer of two records, of which the first is too long under a key (C48): nothing is written. *)
Example C72_write_case : writable asked = true /\ map (fun f => len f) (fragments 20000 (repeat x00 20000)) = [16384; 3616] /\ l_out (run_ops (c_out asked) (g_ops (write_call (repeat x00 20000)))) = [] /\
  List.length (l_out (run_ops (c_out asked) (g_ops (write_call (repeat x00 2000))))) = 1%nat.
Proof. split; [nf|]. split; [nf|]. split; nf. Qed.
