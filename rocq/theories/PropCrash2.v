(** C45, C64: what can crash a connection over a stream, and that nothing else can. *)
From Verif Require Import Base Syntax Frame Record RecordSpec PropRecord Timer Handshake HandshakeProofs Crypto CryptoSpec PropCrypto Messages Pki Negotiation PropNegotiation Machine Cookie Client Server Conn ConnSpec RunSpec Toy PropTrace Forge
  PropCrash CrashSpec CrashProofs5.

(** Whatever was done with a connection before, and however those calls ended: a call that panics leaves the connection in
    one of the states of [crash]. *)
Theorem C64_only_causes E cfg psks client input c : mac_sized (v_prims E) -> sound_config cfg -> used E (newConn cfg psks client input) c ->
  (forall fuel os, snd (handshake E fuel os c) = Panic -> crash (v_prims E) (fst (handshake E fuel os c))) /\
  (forall fuel os n, snd (read E fuel os c n) = Panic -> crash (v_prims E) (fst (read E fuel os c n))) /\
  (forall b, snd (snd (write c b)) = Panic -> crash (v_prims E) (fst (write c b))) /\
  (forall o b, snd (sendKeyUpdate E o c b) = Panic -> crash (v_prims E) (fst (sendKeyUpdate E o c b))).
Proof. intros M S. exact (only_causes E cfg client M S psks input c). Qed.
Print Assumptions C64_only_causes.

Lemma toy_sound : sound_config toy_config.
Proof. split; [reflexivity|]. split; [repeat constructor; auto|]. split; [|reflexivity]. repeat constructor; discriminate. Qed.
(** Four of the causes, each met by a connection that panics. *)
Definition panicking (client : bool) (c : conn) : Prop := sound_config toy_config /\ fed client c /\ snd (handshake toy_env 20 (toy_oracles 301 2) c) = Panic.
Example only_causes_example : panicking true crash1 /\ panicking false crash2 /\ panicking false crash3 /\ panicking true (crash4 true) /\ panicking true crash5.
Proof.
  repeat split; try apply toy_sound; try (apply panics_ok; vm_compute; reflexivity).
  - apply fed_solo, fed_answered, fed_new.
  - apply fed_arrives. unfold called. apply fed_solo, fed_new.
  - apply fed_arrives. unfold called. apply fed_solo, fed_new.
  - apply fed_arrives. unfold called. apply fed_solo, fed_new.
  - apply fed_solo, fed_answered, fed_new.
Qed.
