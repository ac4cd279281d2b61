(** Property C54: early data. *)
From Verif Require Import Base Frame Record Timer Handshake Crypto Messages Pki Negotiation Machine Conn ConnSpec ConnProofs EarlyProofs Toy.

(** What was received by some moment, early data or not, and not yet returned, is returned before anything received later;
    nothing is lost, repeated or made up. [before] is everything received by that moment. *)
Theorem C54_order_partial : forall (E : env) (cfg : config) (psks : cache) (client : bool) (input : list rin) (out1 : bytes) (c1 : conn) (out2 : bytes) (c2 : conn),
  history E (newConn cfg psks client input) out1 c1 -> history E c1 out2 c2 ->
  exists before after, from_records before /\ from_records after /\ before = out1 ++ pending c1 /\ out1 ++ out2 ++ pending c2 = before ++ after.
Proof. exact history_order. Qed.
Print Assumptions C54_order_partial.
(** The histories above exclude a call of Handshake that fails after completion. It can only be one that fails to send
    a ticket: without tickets there is none. *)
Theorem C54_settled : forall (E : env) (cfg : config) (psks : cache) (client : bool) (input : list rin) (c : conn),
  cf_sendSessionTickets cfg = false -> used E (newConn cfg psks client input) c -> settled c.
Proof. exact used_settled. Qed.
Print Assumptions C54_settled.

(** A run with early data: client and server connections step by step, with the given oracles at the server. *)
Definition step_with (os : N -> list oracle) (seed : N) (p : conn * conn) : conn * conn :=
  let '(a, b) := p in
  let '(a, _) := handshake toy_env 20 (toy_oracles seed 2) a in
  let '(a, b) := transfer a b in
  let '(b, _) := handshake toy_env 20 (os (seed + 500)) b in
  let '(b, a) := transfer b a in (a, b).
Fixpoint steps_with (os : N -> list oracle) (n : nat) (seed : N) (p : conn * conn) : conn * conn :=
  match n with O => p | S n => steps_with os n (seed + 10) (step_with os seed p) end.
Definition early_config (tickets : bool) : config :=
  mkCfg toy_name tickets 0 0 0 true false None None None false None None false [] None [TLS_AES_128_GCM_SHA256] [P256] [] [] (Some 1) [] true false None.
Definition early_start (tickets : bool) : conn * conn :=
  let '(c, s) := pair_of (early_config tickets) (early_config tickets) client_psks server_psks in
  let '(c, _) := handshake toy_env 20 (toy_oracles 1 2) c in
  let '(c, _) := write c (str "early") in (c, s).
(** The early data, sent before the server has answered, is returned half before and half after completion. *)
Example C54_case :
  let '(c, s) := steps_with (fun n => toy_oracles n 2) 3 10 (early_start false) in
  let '(s, r1) := read toy_env 20 [] s 3 in
  let '(c, s) := steps_with (fun n => toy_oracles n 2) 8 60 (c, s) in
  let '(c, _) := write c (str "later") in
  let '(c, s) := transfer c s in
  let '(s, r2) := read toy_env 20 (toy_oracles 1 2) s 10 in
  let '(s, r3) := read toy_env 20 (toy_oracles 1 2) s 10 in
  r1 = Ok (str "ear") /\ is_connected s = true /\ r2 = Ok (str "ly") /\ r3 = Ok (str "later").
Proof. vm_compute. repeat split. Qed.

(** Random bytes for a ticket too long for one record. *)
Definition big_oracle (seed : N) : oracle :=
  let o := toy_oracle seed in
  mkO (o_ms o) (o_now o) (o_time o) (o_random o) (o_keys o) (o_sig o) (Some (repeat x01 (N.to_nat 20000))) (o_send o) (o_recv o) (o_generate o)
      (o_validate o) (o_newToken o) (o_decodeToken o) (o_verifyPeer o) (o_protector o).
Lemma steps_used os n : forall seed p, used toy_env (snd p) (snd (steps_with os n seed p)).
Proof.
  induction n as [|n IH]; intros seed [a b]; [constructor|]. cbn [steps_with]. eapply used_trans; [|apply IH]. unfold step_with, transfer.
  destruct (handshake toy_env 20 (toy_oracles seed 2) a) as [a1 ra]. set (b1 := arrives b _).
  pose proof (api_handshake toy_env 20 (os (seed + 500)) b1) as B1. destruct (handshake toy_env 20 (os (seed + 500)) b1) as [b2 rb]. cbn [fst snd] in *.
  eapply used_more; [eapply used_more; [eapply used_more; [constructor|apply api_input]|exact B1]|apply api_output].
Qed.
(** The server completes, fails to send the ticket, and returns what comes later but never the early data. *)
Definition lost : conn * conn := steps_with (fun n => [big_oracle n; big_oracle (n + 1)]) 11 10 (early_start true).
Lemma early_server tickets : snd (early_start tickets) = newConn (early_config tickets) server_psks false [].
Proof. unfold early_start, pair_of. destruct (handshake _ _ _ _) as [x y]. destruct (write x _) as [z t]. reflexivity. Qed.
Lemma lost_used : used toy_env (newConn (early_config true) server_psks false []) (snd lost).
Proof. rewrite <- early_server. apply steps_used. Qed.
Definition lost_server : conn := let '(c, s) := lost in let '(c, _) := write c (str "later") in snd (transfer c s).
Theorem C54_refuted : exists (c : conn) (c' : conn),
  used toy_env (newConn (early_config true) server_psks false []) c /\ pending c = str "early" /\
  read toy_env 20 (toy_oracles 1 2) c 10 = (c', Ok (str "later")).
Proof.
  exists lost_server, (fst (read toy_env 20 (toy_oracles 1 2) lost_server 10)). split; [|split].
  - pose proof lost_used as U. unfold lost_server. destruct lost as [c s]. cbn [snd] in U. destruct (write c (str "later")) as [c2 w].
    eapply used_more; [exact U|apply api_input].
  - vm_compute. reflexivity.
  - assert (snd (read toy_env 20 (toy_oracles 1 2) lost_server 10) = Ok (str "later")) as R by (vm_compute; reflexivity).
    destruct (read toy_env 20 (toy_oracles 1 2) lost_server 10) as [c' r]. cbn [snd fst] in *. now rewrite R.
Qed.
Print Assumptions C54_refuted.
