(** Specification vocabulary for connections between two ends, whatever the results of the calls. *)
From Verif Require Import Base Frame Record Handshake Crypto Messages Pki Negotiation Machine Conn ConnSpec RunSpec AgreeSpec ChannelSpec JointSpec CompleteSpec.

(** A call that has come back. *)
Definition ended {A} (r : res A) : Prop := match r with Ok _ | Err _ => True | Panic | Fuel => False end.

(** As [session], with calls of [Handshake] that may fail and messages that may be too long. *)
Inductive play (Qc Qs : oracle -> Prop) (E : env) (ccfg scfg : config) (cpsks spsks : cache) : list event -> list event -> traffic -> net -> Prop :=
| pl_new : play Qc Qs E ccfg scfg cpsks spsks [] [] (mkTr [] [] [] []) (mkNet (newConn ccfg cpsks true []) (newConn scfg spsks false []) [] [])
| pl_client_handshake ce se t n fuel os c' r : play Qc Qs E ccfg scfg cpsks spsks ce se t n -> Forall Qc os -> handshake E fuel os (n_client n) = (c', r) -> ended r \/ blocked E fuel os (n_client n) ->
    play Qc Qs E ccfg scfg cpsks spsks (ce ++ handshake_events E fuel os (n_client n)) se t (client_calls n c')
| pl_server_handshake ce se t n fuel os c' r : play Qc Qs E ccfg scfg cpsks spsks ce se t n -> Forall Qs os -> handshake E fuel os (n_server n) = (c', r) -> ended r \/ blocked E fuel os (n_server n) ->
    play Qc Qs E ccfg scfg cpsks spsks ce (se ++ handshake_events E fuel os (n_server n)) t (server_calls n c')
| pl_client_use ce se t n w g c' : play Qc Qs E ccfg scfg cpsks spsks ce se t n -> use_of E (n_client n) w g c' ->
    play Qc Qs E ccfg scfg cpsks spsks ce se (mkTr (wrote_c t ++ w) (got_c t ++ g) (wrote_s t) (got_s t)) (client_calls n c')
| pl_server_use ce se t n w g c' : play Qc Qs E ccfg scfg cpsks spsks ce se t n -> use_of E (n_server n) w g c' ->
    play Qc Qs E ccfg scfg cpsks spsks ce se (mkTr (wrote_c t) (got_c t) (wrote_s t ++ w) (got_s t ++ g)) (server_calls n c')
| pl_deliver_server ce se t n x y : play Qc Qs E ccfg scfg cpsks spsks ce se t n -> n_up n = x ++ y ->
    play Qc Qs E ccfg scfg cpsks spsks ce se t (mkNet (n_client n) (arrives (n_server n) [RBytes x]) y (n_down n))
| pl_deliver_client ce se t n x y : play Qc Qs E ccfg scfg cpsks spsks ce se t n -> n_down n = x ++ y ->
    play Qc Qs E ccfg scfg cpsks spsks ce se t (mkNet (arrives (n_client n) [RBytes x]) (n_server n) (n_up n) y).

(** No call of [Handshake] fails, now or later. *)
Definition never_fails (Qc Qs : oracle -> Prop) (E : env) (n : net) : Prop := forall fuel os,
  (Forall Qc os -> unfailing (snd (handshake E fuel os (n_client n)))) /\ (Forall Qs os -> unfailing (snd (handshake E fuel os (n_server n)))).

(** ** Ends that have nothing to do *)

(** The states in which a message is read. *)
Definition reads_message (s : hstate) : bool :=
  match s with CWaitSH _ | CWaitEE _ | CWaitCertCR _ | CWaitCert _ _ | CWaitCV _ _ _ | CWaitFinished _ _ _ _ _ | SStart | SWaitCert _ | SWaitCV _ _ | SWaitFinished _ _ => true | _ => false end.
(** Without non-blocking mode: the read of the next message does not come back. *)
Definition stalled (c : conn) : Prop := exists s, c_hState c = Some s /\ reads_message s = true /\ exists o, forall fuel, snd (hr_read fuel o (c_world c)) = Fuel.
(** In non-blocking mode: a call that would block, neither sends nor reads a message, and leaves the connection as it was. *)
Definition idle (Q : oracle -> Prop) (E : env) (c : conn) : Prop :=
  (exists fuel os, Forall Q os /\ handshake E fuel os c = (c, Err (EAlert AlertWouldBlock)) /\ handshake_events E fuel os c = []) \/ stalled c.
(** All that was sent has been delivered, and each end has completed its handshake or has nothing to do. *)
Definition at_rest (Qc Qs : oracle -> Prop) (E : env) (n : net) : Prop :=
  n_up n = [] /\ n_down n = [] /\ (c_complete (n_client n) = true \/ idle Qc E (n_client n)) /\ (c_complete (n_server n) = true \/ idle Qs E (n_server n)).

(** ** Rounds *)

(** What is in flight arrives in one piece. *)
Definition delivery (c : conn) (b : bytes) : conn := match b with [] => c | _ => arrives c [RBytes b] end.
(** A call of [Handshake] that comes back, or that waits in the read of a message. *)
Definition called (Q : oracle -> Prop) (E : env) (fuel : nat) (os : list oracle) (c c' : conn) : Prop :=
  Forall Q os /\ exists r, handshake E fuel os c = (c', r) /\ (ended r \/ (blocked E fuel os c /\ stalled c')).
(** All that is in flight arrives, and both ends are called. *)
Definition round (Qc Qs : oracle -> Prop) (E : env) (n n' : net) : Prop := exists cf co sf so c s,
  called Qc E cf co (delivery (n_client n) (n_down n)) c /\ called Qs E sf so (delivery (n_server n) (n_up n)) s /\
  n' = mkNet (taken c) (taken s) (concat (l_out (c_out c))) (concat (l_out (c_out s))).
