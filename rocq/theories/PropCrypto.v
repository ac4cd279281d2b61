(** Properties C32-C34: HKDF labels, HKDF-Expand, finite-field key agreement. *)
From Verif Require Import Base Crypto CryptoSpec CryptoProofs.

(** Primitives for the examples: a checksum as hash and MAC, addition as agreement. *)
Definition checksum (b : bytes) : N := fold_left (fun a x => (a * 31 + bN x + 7) mod 65521) b 1.
Definition toy_digest (h : hash) (m : bytes) : bytes := be (hsize h) (checksum m).
Definition toy_hmac (h : hash) (k m : bytes) : bytes := be (hsize h) (checksum (k ++ x5c :: m) * 65536 + checksum (m ++ k)).
(** The curves: public value and agreement are built from sums, of the sizes the groups have. *)
Definition toy_public (g : N) (priv : bytes) : bytes := be (keyExchangeSize g) (3 * (unbe priv mod 2 ^ 64) + 1).
Definition toy_agree (g : N) (pub priv : bytes) : option bytes :=
  if unbe pub mod 3 =? 1 then Some (be 32 ((unbe pub - 1) * (unbe priv mod 2 ^ 64))) else None.
Definition toy_prims : prims := mkPrims toy_digest toy_hmac toy_public toy_agree.
Lemma toy_prims_sized : mac_sized toy_prims.
Proof. intros h k m. apply be_length. Qed.

(** ** C32 *)

(** The info string is RFC 8446's HkdfLabel for the label with its prefix. *)
Theorem C32_label_format :
  forall (label context : bytes) (length : N),
    hkdfEncodeLabel label context length = HkdfLabel8446 (str "tls13 " ++ label) context length.
Proof. exact label_rfc. Qed.
Print Assumptions C32_label_format.

(** For labels of any length. *)
Theorem C32_labels_injective :
  forall (l1 c1 : bytes) (n1 : N) (l2 c2 : bytes) (n2 : N),
    len c1 <= 255 -> n1 < 2 ^ 16 -> len c2 <= 255 -> n2 < 2 ^ 16 ->
    hkdfEncodeLabel l1 c1 n1 = hkdfEncodeLabel l2 c2 n2 -> l1 = l2 /\ c1 = c2 /\ n1 = n2.
Proof. exact label_inj. Qed.
Print Assumptions C32_labels_injective.

Example C32_case :
  hkdfEncodeLabel labelForIV [] 12 = map b8 [0; 12; 8; 116; 108; 115; 49; 51; 32; 105; 118; 0] /\
  hkdfEncodeLabel (str "a") (str "b") 300 <> hkdfEncodeLabel (str "ab") [] 300.
Proof. split; [reflexivity|vm_compute; discriminate]. Qed.

(** ** C33 *)

Theorem C33_expand :
  forall (P : prims) (h : hash) (prk info : bytes) (outLen : nat),
    mac_sized P -> (outLen <= 255 * hsize h)%nat ->
    List.length (hkdfExpand P h prk info outLen) = outLen /\
    hkdfExpand P h prk info outLen = firstn outLen (blocks5869 (hmac P h) prk info 255).
Proof. exact expand_rfc. Qed.
Print Assumptions C33_expand.

Example C33_case :
  mac_sized toy_prims /\ (100 <= 255 * hsize SHA256)%nat /\
  hkdfExpand toy_prims SHA256 (str "key") (str "info") 70 =
    firstn 70 (T5869 (toy_hmac SHA256) (str "key") (str "info") 1 ++ T5869 (toy_hmac SHA256) (str "key") (str "info") 2 ++ T5869 (toy_hmac SHA256) (str "key") (str "info") 3).
Proof. split; [exact toy_prims_sized|]. split; [simpl; lia|vm_compute; reflexivity]. Qed.

(** ** C34 *)

Theorem C34_ffdhe_agreement :
  forall (P : prims) (g : N) (ra rb : keyrand) (puba priva pubb privb : bytes),
    In g ffdhe_groups ->
    newKeyShare P ra g = Ok (puba, priva) -> newKeyShare P rb g = Ok (pubb, privb) ->
    exists z, keyAgreement P g pubb priva = Ok z /\ keyAgreement P g puba privb = Ok z /\ List.length z = keyExchangeSize g.
Proof. exact ffdhe_agree. Qed.
Print Assumptions C34_ffdhe_agreement.

(** Key generation succeeds with any exponent whose power is as long as the prime. *)
Example C34_case :
  In FFDHE2048 ffdhe_groups /\ In FFDHE8192 ffdhe_groups /\
  is_ok (newKeyShare toy_prims (mkKr None [Some 5; Some 3001]) FFDHE2048) /\
  is_ok (newKeyShare toy_prims (mkKr None [Some 9000]) FFDHE8192).
Proof. split; [vm_compute; tauto|]. split; [vm_compute; tauto|]. split; eexists; vm_compute; reflexivity. Qed.
