(** Specification vocabulary for rounds that can always be had. *)
From Verif Require Import Base Record Machine Conn AgreeSpec ChannelSpec JointSpec CrashSpec PlaySpec.

(** One net leads to another by a number of rounds. *)
Inductive rounds (Qc Qs : oracle -> Prop) (E : env) : net -> net -> Prop :=
| rs_none n : rounds Qc Qs E n n
| rs_more n n1 n2 : round Qc Qs E n n1 -> rounds Qc Qs E n1 n2 -> rounds Qc Qs E n n2.
(** A call that fails for want of record numbers: 2^48 - 1 records have been read or written under the keys of a direction. *)
Definition numbers_gone (Q : oracle -> Prop) (E : env) (c : conn) : Prop := exists fuel os c', Forall Q os /\ handshake E fuel os c = (c', Panic) /\ (worn_out (c_in c') \/ worn_out (c_out c')).
(** So at one of the ends, once all that is in flight has arrived. *)
Definition used_up (Qc Qs : oracle -> Prop) (E : env) (n : net) : Prop := numbers_gone Qc E (delivery (n_client n) (n_down n)) \/ numbers_gone Qs E (delivery (n_server n) (n_up n)).
