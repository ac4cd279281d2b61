(** Properties C16 and C56: handshake messages over TLS records. Vocabulary in HandshakeSpec.v. *)
From Verif Require Import Base Frame Record RecordSpec PropRecord Timer Handshake HandshakeSpec HandshakeProofs.

(** C16. The messages one side sends are the messages the other side reads, whatever their sizes, however the
    transport cuts up the bytes, in blocking and nonblocking mode, in clear or under shared keys. *)
Theorem C16_messages :
  forall (w : hctx) (wcore : rcore) (ms : list (byte * bytes)) (w' x : hctx) (rcore : rcore) (conn : list rin) (now : N),
    tls_writer w wcore -> sends w ms = (w', Ok tt) -> Forall (fun m => len (snd m) < 2 ^ 24) ms ->
    in_step (cur wcore) (cur rcore) -> cur_ok wcore -> cur_ok rcore -> (forall k, c_aead (cur wcore) = Some k -> aead_ok k) ->
    tls_reader x rcore conn -> segmentation conn (concat (l_out (hl_conn (x_out w')))) ->
    exists F, forall fuel k, (F <= fuel)%nat -> (F <= k)%nat -> received fuel k now x = map (fun m => Ok (tls_message m)) ms.
Proof. exact tls_messages. Qed.
Print Assumptions C16_messages.

(** Sending succeeds if a full fragment fits a record. *)
Theorem C16_sending :
  forall (ms : list (byte * bytes)) (x : hctx),
    hl_datagram (x_out x) = false -> x_sent x = [] -> (4 < hl_max (x_out x))%nat ->
    protected_len (l_core (hl_conn (x_out x))) (hl_max (x_out x)) <= 2 ^ 14 ->
    writable (size_of ms) (l_core (hl_conn (x_out x))) -> Forall (fun m => len (snd m) < 2 ^ 24) ms ->
    exists x', sends x ms = (x', Ok tt).
Proof. exact sends_ok. Qed.
Print Assumptions C16_sending.

Definition hx_of (hin hout : hlayer) : hctx := mkHx hin hout [] false newTimerSet initialTimeout.
Definition hl_of (dg nb : bool) (conn : rlayer) (max : nat) : hlayer :=
  mkHl nb conn (newFrameReader (handshakeFraming dg)) dg 0 [] [] max.
Definition idle_layer : hlayer := newHandshakeLayer false (newRecordLayer false DirRead []).

(** Three messages under a key, in fragments of at most seven bytes, read byte by byte in nonblocking mode. *)
Definition msgs3 : list (byte * bytes) := [(x01, hello ++ hello); (x0b, []); (x14, [x00; x01])].
Definition wcore3 : rcore := keyed_core false DirWrite 2 (toy xaa).
Definition rcore3 : rcore := keyed_core false DirRead 2 (toy xaa).
Definition w3 : hctx := hx_of idle_layer (hl_of false false (fresh wcore3 []) 7).
Definition r3 : hctx := hx_of (hl_of false true (fresh rcore3 (map (fun b => RBytes [b]) (concat (l_out (hl_conn (x_out (fst (sends w3 msgs3)))))))) 7) idle_layer.
Example C16_case :
  tls_writer w3 wcore3 /\ snd (sends w3 msgs3) = Ok tt /\ List.length (l_out (hl_conn (x_out (fst (sends w3 msgs3))))) = 4%nat /\
  in_step (cur wcore3) (cur rcore3) /\ writable (size_of msgs3) (l_core (hl_conn (x_out w3))) /\
  received 1 200 0 r3 = map (fun m => Ok (tls_message m)) msgs3.
Proof.
  split; [repeat split|]. split; [vm_compute; reflexivity|]. split; [vm_compute; reflexivity|]. split; [repeat split|].
  split; [|vm_compute; reflexivity].
  split; [reflexivity|]. split; [cbv; lia|]. split; [vm_compute; reflexivity|]. intros k [= <-].
  split; [apply toy_ok|]. split; [cbv; lia|reflexivity].
Qed.

(** C56. Under keys and with the default fragment size, every message that does not fit one record with its
    overhead is refused: the fragment size leaves no room for the overhead. *)
Theorem C56_large_message_limit :
  forall (x : hctx) (t : byte) (b : bytes) (k : aead),
    hl_datagram (x_out x) = false -> x_sent x = [] -> hl_max (x_out x) = N.to_nat maxFragmentLen ->
    c_aead (cur (l_core (hl_conn (x_out x)))) = Some k -> writable 1 (l_core (hl_conn (x_out x))) ->
    len b < 2 ^ 24 -> 2 ^ 14 < 5 + len b + N.of_nat (overhead k) ->
    exists x' e, sends x [(t, b)] = (x', Err e).
Proof. exact big_message_fails. Qed.
Print Assumptions C56_large_message_limit.

Definition w56 : hctx := hx_of idle_layer (newHandshakeLayer false (fresh wcore3 [])).
Definition body56 : bytes := repeat x07 (N.to_nat 16379).
Example C56_case :
  hl_max (x_out w56) = N.to_nat maxFragmentLen /\ writable 1 (l_core (hl_conn (x_out w56))) /\ 2 ^ 14 < 5 + len body56 + 1 /\
  snd (sends w56 [(x0b, body56)]) = Err (EMsg "tls.record: Record size too big") /\
  snd (sends w56 [(x0b, tl body56)]) = Ok tt.
Proof.
  split; [reflexivity|]. split.
  - split; [reflexivity|]. split; [cbv; lia|]. split; [vm_compute; reflexivity|]. intros k [= <-]. split; [apply toy_ok|]. split; [cbv; lia|reflexivity].
  - split; [vm_compute; reflexivity|]. split; vm_compute; reflexivity.
Qed.

(** So not every message of legal size can be sent. *)
Theorem C56_large_message_refuted :
  exists (x : hctx) (t : byte) (b : bytes), tls_writer x wcore3 /\ hl_max (x_out x) = N.to_nat maxFragmentLen /\
    writable (size_of [(t, b)]) (l_core (hl_conn (x_out x))) /\ len b < 2 ^ 24 /\
    forall x', sends x [(t, b)] <> (x', Ok tt).
Proof.
  exists w56, x0b, body56. split; [repeat split|]. split; [reflexivity|]. split.
  - split; [reflexivity|]. split; [cbv; lia|]. split; [vm_compute; reflexivity|]. intros k [= <-]. split; [apply toy_ok|]. split; [cbv; lia|reflexivity].
  - split; [vm_compute; reflexivity|]. intros x' H. apply (f_equal snd) in H. revert H. vm_compute. discriminate.
Qed.
Print Assumptions C56_large_message_refuted.
