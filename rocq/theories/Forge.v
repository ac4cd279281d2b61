(** Peers that do not follow the protocol, for the witnesses: they make records with the model's own functions from keys
    of their choice. *)
From Verif Require Import Base Syntax Frame Record RecordSpec PropRecord Timer Handshake Crypto PropCrypto Messages Pki Negotiation PropNegotiation Machine Cookie Client Server Conn ConnSpec RunSpec Toy PropTrace.

(** The world-independent part of a message made by a forger: the handshake message of a body. *)
Definition forge_message (a : conn) (b : body) : conn * hmsg :=
  match newMessage (c_world a) b with
  | (w, Ok m) => (set_world a w, m)
  | (w, _) => (set_world a w, mkHm x00 0 [] false 0 0 None)
  end.
Definition forge_actions (a : conn) (l : list action) : conn := fst (takeActions toy_env 0 a l).
(** Sending one message, and changing keys. *)
Definition forge_send (a : conn) (b : body) : conn * hmsg :=
  let '(a, m) := forge_message a b in (forge_actions a [QueueHandshakeMessage m; SendQueuedHandshake], m).
(** What has been written, as input of the other end. *)
Definition forged (a : conn) : list rin := [RBytes (concat (l_out (c_out a)))].
Definition forger (client : bool) : conn := newConn toy_config [] client [].
Definition of_res {A} (r : res A) (d : A) : A := match r with Ok a => a | _ => d end.

(** Calls of [Handshake] on one connection, with their results and events. *)
Fixpoint solo (n : nat) (seed : N) (c : conn) : conn * list (res unit) :=
  match n with
  | O => (c, [])
  | S n => let '(c, r) := handshake toy_env 20 (toy_oracles seed 2) c in let '(c, rs) := solo n (seed + 10) c in (c, r :: rs)
  end.
Fixpoint solo_events (n : nat) (seed : N) (c : conn) : list event :=
  match n with
  | O => []
  | S n => handshake_events toy_env 20 (toy_oracles seed 2) c ++ solo_events n (seed + 10) (fst (handshake toy_env 20 (toy_oracles seed 2) c))
  end.
Lemma steady_solo n : forall seed c c0 evs, forallb fineb (snd (solo n seed c)) = true -> steady toy_like toy_env c0 evs c ->
  steady toy_like toy_env c0 (evs ++ solo_events n seed c) (fst (solo n seed c)).
Proof.
  induction n as [|n IH]; intros seed c c0 evs F H; [cbn; now rewrite app_nil_r|]. cbn [solo solo_events] in *.
  destruct (handshake toy_env 20 (toy_oracles seed 2) c) as [c1 r] eqn:A. cbn [fst].
  specialize (IH (seed + 10) c1 c0 (evs ++ handshake_events toy_env 20 (toy_oracles seed 2) c)).
  destruct (solo n (seed + 10) c1) as [c2 rs] eqn:B. cbn [fst snd forallb] in *. apply andb_prop in F. destruct F as [F1 F2].
  rewrite app_assoc. apply IH; [exact F2|]. eapply steady_handshake; [exact H|apply toy_oracles_like|exact A|left; now apply fineb_ok].
Qed.
(** A connection that is called, given an answer made from what it has written, and called again. *)
Definition answered (n m : nat) (seed : N) (answer : bytes -> list rin) (c : conn) : conn :=
  let c := fst (solo n seed c) in arrives c (answer (concat (l_out (c_out c)))).
Lemma steady_answered n m seed answer c : forallb fineb (snd (solo n seed c)) = true -> forallb fineb (snd (solo m (seed + 300) (answered n m seed answer c))) = true ->
  steady toy_like toy_env c (solo_events n seed c ++ solo_events m (seed + 300) (answered n m seed answer c)) (fst (solo m (seed + 300) (answered n m seed answer c))).
Proof.
  intros F1 F2. apply steady_solo; [exact F2|]. eapply steady_other; [|apply ou_input].
  change (solo_events n seed c) with ([] ++ solo_events n seed c). apply steady_solo; [exact F1|constructor].
Qed.
