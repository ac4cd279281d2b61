(** Specification of signatures in CertificateVerify, from RFC 8446 sections 4.2.3 and 4.4.3. *)
From Verif Require Import Base Crypto Pki.

(** Section 4.4.3: 64 spaces, the context string, a zero byte and the transcript hash. *)
Definition signed_content (context : string) (hash : bytes) : bytes := repeat (b8 0x20) 64 ++ str context ++ [x00] ++ hash.
Definition server_context : string := "TLS 1.3, server CertificateVerify".
Definition client_context : string := "TLS 1.3, client CertificateVerify".

(** Section 4.2.3: the schemes in use, for which keys, with which algorithm and hash. SHA-1 schemes are not among them. *)
Inductive scheme_for : N -> keytype -> sigalg -> hash -> Prop :=
| rsa_pkcs1_sha256 : scheme_for 0x0401 KRsa SigPKCS1 SHA256
| rsa_pkcs1_sha384 : scheme_for 0x0501 KRsa SigPKCS1 SHA384
| rsa_pkcs1_sha512 : scheme_for 0x0601 KRsa SigPKCS1 SHA512
| ecdsa_secp256r1_sha256 : scheme_for 0x0403 (KEcdsa 23) SigECDSA SHA256
| ecdsa_secp384r1_sha384 : scheme_for 0x0503 (KEcdsa 24) SigECDSA SHA384
| ecdsa_secp521r1_sha512 : scheme_for 0x0603 (KEcdsa 25) SigECDSA SHA512
| rsa_pss_rsae_sha256 : scheme_for 0x0804 KRsa SigPSS SHA256
| rsa_pss_rsae_sha384 : scheme_for 0x0805 KRsa SigPSS SHA384
| rsa_pss_rsae_sha512 : scheme_for 0x0806 KRsa SigPSS SHA512.

(** [sg] is a signature of [content] under the key of [cert] with scheme [alg]. *)
Definition valid_signature (P : prims) (X : pki) (alg : N) (cert content sg : bytes) : Prop :=
  exists s h, scheme_for alg (x_pubtype X cert) s h /\ x_verify X cert s h (digest P h content) sg = true.

(** A key pair that works: the certificate's key has the type of the private key and accepts what it signs. *)
Definition pair_works (X : pki) (cert key : bytes) : Prop :=
  x_pubtype X cert = x_privtype X key /\
  forall s h d rnd sg, x_sign X key s h d rnd = Some sg -> x_verify X cert s h d sg = true.
