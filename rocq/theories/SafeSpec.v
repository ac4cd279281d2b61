(** Specification vocabulary for calls between two ends that do not crash. *)
From Verif Require Import Base Record Machine Conn AgreeSpec JointSpec CrashSpec PlaySpec.

(** A call of [Handshake] that comes back, that would block, or that fails for want of record numbers: 2^48 - 1 records have been read or written under the keys of a direction. *)
Definition crash_free (Q : oracle -> Prop) (E : env) (c : conn) : Prop := forall fuel os c',
  Forall Q os -> handshake E fuel os c = (c', Panic) -> worn_out (c_in c') \/ worn_out (c_out c').
