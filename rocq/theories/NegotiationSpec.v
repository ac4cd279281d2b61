(** Specifications for negotiation, from RFC 8446. *)
From Verif Require Import Base Crypto CryptoSpec.

(** [x] is the first member of [l] with property [Q]. *)
Definition first_where {A} (Q : A -> Prop) (l : list A) (x : A) : Prop :=
  exists pre post, l = pre ++ x :: post /\ Q x /\ forall y, In y pre -> ~ Q y.

(** RFC 8446 section 7.1: HKDF-Expand-Label and Derive-Secret, over a MAC. *)
Definition Expand_Label8446 (mac : bytes -> bytes -> bytes) (secret label context : bytes) (length : nat) : bytes :=
  firstn length (blocks5869 mac secret (HkdfLabel8446 (str "tls13 " ++ label) context (N.of_nat length)) 255).
(** RFC 8446 section 4.2.11.2 and 7.1: the binder of a PSK over a transcript, for a hash with its HMAC. *)
Definition binder8446 (H : bytes -> bytes) (mac : bytes -> bytes -> bytes) (size : nat) (resumption : bool) (key transcript : bytes) : bytes :=
  let early_secret := mac (repeat x00 size) key in
  let binder_key := Expand_Label8446 mac early_secret (str (if resumption then "res binder" else "ext binder")) (H []) size in
  let finished_key := Expand_Label8446 mac binder_key (str "finished") [] size in
  mac finished_key (H transcript).

(** The age a ticket identity claims (RFC 8446 section 4.2.11.1), in milliseconds. *)
Definition claimed_age (obfuscated ageAdd : N) : Z := (Z.of_N obfuscated - Z.of_N ageAdd) mod 2 ^ 32.
(** Its real age, for a clock in nanoseconds. *)
Definition real_age (now receivedAt : Z) : Z := (now - receivedAt) / 1000000.
