(** A small environment in which the model computes, for the examples and witnesses: checksum hash, one-byte cipher
    tag, certificates whose key is their own encoding; and two connections joined by an in-order transport. *)
From Verif Require Import Base Syntax Frame Record RecordSpec PropRecord Timer Handshake Crypto PropCrypto Messages Pki Negotiation PropNegotiation Machine Cookie Client Server Conn ConnSpec.

Definition toy_gcm (key : bytes) : aead := toy (hd x00 key).
Definition toy_env : env := mkEnv toy_prims toy_pki toy_gcm (fun n => n).

(** Oracles: [seed] varies the random values. *)
Definition toy_oracle (seed : N) : oracle :=
  mkO seed 0%Z (fun _ => 0%Z) (Some (be 32 (seed + 17))) (fun n => mkKr (Some (be 32 (1000 * seed + N.of_nat n))) []) []
      (Some (be 36 (seed + 1234567))) (fun _ _ l => Some l) (fun _ _ l => Some l) (fun _ => Some (Some [x61]))
      (fun _ _ => true) (fun _ d => Some (x42 :: d)) (fun _ t => match t with x42 :: d => Some d | _ => None end)
      (fun _ _ _ => true) (Some 7).
Definition toy_oracles (seed : N) (n : nat) : list oracle := map (fun i => toy_oracle (seed + N.of_nat i)) (seq 0 n).

Definition toy_name : bytes := str "example.org".
(** The certificate's encoding is its name and its key. *)
Definition toy_cert : keypair := mkKp [toy_name] toy_name.
Definition toy_config : config :=
  mkCfg toy_name false 0 0 0 false false None None None false None None false [toy_cert] None [] [P256] [] [] (Some 1) [] true false None.
Definition toy_psk : psk := mkPsk TLS_AES_128_GCM_SHA256 false (str "id") (str "shared key") [] 0 0 0.
Definition psk_config : config :=
  mkCfg toy_name false 0 0 0 true false None None None false None None false [] None [TLS_AES_128_GCM_SHA256] [P256] [] [] (Some 1) [] true false None.
Definition client_psks : cache := [(toy_name, toy_psk)].
Definition server_psks : cache := [(hexEncode (str "id"), toy_psk)].

(** What [a] has written is given to [b] to read. *)
Definition transfer (a b : conn) : conn * conn :=
  (taken a, arrives b (match concat (l_out (c_out a)) with [] => [] | d => [RBytes d] end)).
(** One call of [Handshake] at each end, with what was written delivered in between; results are kept. *)
Definition both (seed : N) (p : conn * conn) : (conn * conn) * (res unit * res unit) :=
  let '(a, b) := p in
  let '(a, ra) := handshake toy_env 20 (toy_oracles seed 2) a in
  let '(a, b) := transfer a b in
  let '(b, rb) := handshake toy_env 20 (toy_oracles (seed + 500) 2) b in
  let '(b, a) := transfer b a in
  ((a, b), (ra, rb)).
Fixpoint joint (n : nat) (seed : N) (p : conn * conn) : (conn * conn) * list (res unit * res unit) :=
  match n with
  | O => (p, [])
  | S n => let '(p, r) := both seed p in let '(p, rs) := joint n (seed + 10) p in (p, r :: rs)
  end.
Definition pair_of (cc sc : config) (cp sp : cache) : conn * conn := (newConn cc cp true [], newConn sc sp false []).

Lemma used_trans E a b c : used E a b -> used E b c -> used E a c.
Proof. intros U V. induction V as [|x y _ IH A]; [exact U|]. eapply used_more; eauto. Qed.
Lemma used_joint n : forall seed p, used toy_env (fst p) (fst (fst (joint n seed p))) /\ used toy_env (snd p) (snd (fst (joint n seed p))).
Proof.
  induction n as [|n IH]; intros seed [a b]; [split; constructor|]. cbn [joint]. unfold both, transfer.
  pose proof (api_handshake toy_env 20 (toy_oracles seed 2) a) as A1. destruct (handshake toy_env 20 (toy_oracles seed 2) a) as [a1 ra].
  set (b1 := arrives b _). pose proof (api_handshake toy_env 20 (toy_oracles (seed + 500) 2) b1) as B1.
  destruct (handshake toy_env 20 (toy_oracles (seed + 500) 2) b1) as [b2 rb]. cbn [fst] in A1, B1.
  set (a2 := arrives (taken a1) _). specialize (IH (seed + 10) (a2, taken b2)). destruct (joint n (seed + 10) (a2, taken b2)) as [[a3 b3] rs]. cbn [fst snd] in *.
  destruct IH as [Ua Ub]. split.
  - eapply used_trans; [|exact Ua]. eapply used_more; [eapply used_more; [eapply used_more; [constructor|exact A1]|apply api_output]|apply api_input].
  - eapply used_trans; [|exact Ub]. eapply used_more; [eapply used_more; [eapply used_more; [constructor|apply api_input]|exact B1]|apply api_output].
Qed.

(** A server that asks for a cookie. *)
Definition cookie_config : config :=
  mkCfg toy_name false 0 0 0 false true None (Some 7) None false None None false [toy_cert] None [] [P256] [] [] (Some 1) [] true false None.
Definition hrr_run := joint 12 1 (pair_of toy_config cookie_config [] []).
