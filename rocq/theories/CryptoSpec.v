(** Specifications for key derivation, from RFC 5869 and RFC 8446. *)
From Verif Require Import Base Crypto.

(** RFC 5869 section 2.3: T(0) is empty, T(i) = HMAC(PRK, T(i-1) | info | i). *)
Fixpoint T5869 (mac : bytes -> bytes -> bytes) (prk info : bytes) (i : nat) : bytes :=
  match i with
  | O => []
  | S j => mac prk (T5869 mac prk info j ++ info ++ [b8 (N.of_nat i)])
  end.
(** The first [n] blocks T(1) | ... | T(n). *)
Definition blocks5869 (mac : bytes -> bytes -> bytes) (prk info : bytes) (n : nat) : bytes :=
  concat (map (fun i => T5869 mac prk info (S i)) (seq 0 n)).

(** RFC 8446 section 7.1, HkdfLabel: length, label with its length, context with its length. *)
Definition HkdfLabel8446 (label context : bytes) (length : N) : bytes :=
  be 2 length ++ be 1 (len label) ++ label ++ be 1 (len context) ++ context.

(** The finite-field groups. *)
Definition ffdhe_groups : list N := [256; 257; 258; 259; 260].
