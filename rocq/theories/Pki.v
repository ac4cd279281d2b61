(** Model of the signature part of /repo/crypto.go. Certificates are their encodings; what the code asks of
    package x509 and of the RSA and ECDSA packages are the fields of a record [pki]. *)
From Verif Require Import Base Crypto Messages.

(** common.go:94-111 *)
Definition RSA_PKCS1_SHA1 : N := 0x0201.
Definition RSA_PKCS1_SHA256 : N := 0x0401.
Definition RSA_PKCS1_SHA384 : N := 0x0501.
Definition RSA_PKCS1_SHA512 : N := 0x0601.
Definition ECDSA_P256_SHA256 : N := 0x0403.
Definition ECDSA_P384_SHA384 : N := 0x0503.
Definition ECDSA_P521_SHA512 : N := 0x0603.
Definition RSA_PSS_SHA256 : N := 0x0804.
Definition RSA_PSS_SHA384 : N := 0x0805.
Definition RSA_PSS_SHA512 : N := 0x0806.
(** common.go:18 *)
Definition allowPKCS1 : bool := true.

(** crypto.go:39-46 *)
Inductive sigalg := SigUnknown | SigPKCS1 | SigPSS | SigECDSA.
Definition sigalg_eqb (a b : sigalg) : bool :=
  match a, b with SigUnknown, SigUnknown | SigPKCS1, SigPKCS1 | SigPSS, SigPSS | SigECDSA, SigECDSA => true | _, _ => false end.

(** crypto.go:49-60; a missing entry is the zero hash. *)
Definition hashMap (alg : N) : option hash :=
  if alg =? RSA_PKCS1_SHA1 then Some SHA1
  else if (alg =? RSA_PKCS1_SHA256) || (alg =? ECDSA_P256_SHA256) || (alg =? RSA_PSS_SHA256) then Some SHA256
  else if (alg =? RSA_PKCS1_SHA384) || (alg =? ECDSA_P384_SHA384) || (alg =? RSA_PSS_SHA384) then Some SHA384
  else if (alg =? RSA_PKCS1_SHA512) || (alg =? ECDSA_P521_SHA512) || (alg =? RSA_PSS_SHA512) then Some SHA512
  else None.
(** crypto.go:62-73 *)
Definition sigMap (alg : N) : sigalg :=
  if (alg =? RSA_PKCS1_SHA1) || (alg =? RSA_PKCS1_SHA256) || (alg =? RSA_PKCS1_SHA384) || (alg =? RSA_PKCS1_SHA512) then SigPKCS1
  else if (alg =? ECDSA_P256_SHA256) || (alg =? ECDSA_P384_SHA384) || (alg =? ECDSA_P521_SHA512) then SigECDSA
  else if (alg =? RSA_PSS_SHA256) || (alg =? RSA_PSS_SHA384) || (alg =? RSA_PSS_SHA512) then SigPSS
  else SigUnknown.
(** crypto.go:75-79 *)
Definition curveMap (alg : N) : N :=
  if alg =? ECDSA_P256_SHA256 then P256 else if alg =? ECDSA_P384_SHA384 then P384 else if alg =? ECDSA_P521_SHA512 then P521 else 0.

(** The Go type of a public or private key, with the group of an ECDSA key as crypto.go:131-141 computes it. *)
Inductive keytype := KRsa | KEcdsa (group : N) | KOther.

(** External calls. A private key is an opaque byte string.
    - [x_parses]: x509.ParseCertificate succeeds; [x_names]: the DNSNames of a parsed certificate;
    - [x_pubtype]: the type of its public key; [x_privtype]: that of a private key;
    - [x_sign key alg h digest rnd]: crypto.Signer.Sign with PKCS#1, PSS or ECDSA;
    - [x_verify cert alg h digest sig]: rsa.VerifyPKCS1v15, rsa.VerifyPSS, or the ASN.1 and ECDSA checks of
      crypto.go:428-444, under the certificate's key;
    - [x_chain roots name now cert intermediates]: x509.Certificate.Verify, with the chains it returns; no roots
      means the host's. *)
Record pki := mkPki {
  x_parses : bytes -> bool;
  x_names : bytes -> list bytes;
  x_pubtype : bytes -> keytype;
  x_privtype : bytes -> keytype;
  x_sign : bytes -> sigalg -> hash -> bytes -> bytes -> option bytes;
  x_verify : bytes -> sigalg -> hash -> bytes -> bytes -> bool;
  x_chain : option (list bytes) -> bytes -> Z -> bytes -> list bytes -> option (list (list bytes))
}.

(** crypto.go:184-194 *)
Definition schemeValidForKey (X : pki) (alg : N) (key : bytes) : bool :=
  match x_privtype X key with
  | KRsa => sigalg_eqb (sigMap alg) SigPKCS1 || sigalg_eqb (sigMap alg) SigPSS
  | KEcdsa _ => sigalg_eqb (sigMap alg) SigECDSA
  | KOther => false
  end.

(** crypto.go:336-385: which primitive is used; PKCS#1 schemes use PSS when PKCS#1 is not allowed. The group of
    an ECDSA private key is that of its public key. *)
Definition sig_primitive (alg : N) (kt : keytype) : option sigalg :=
  match kt with
  | KRsa =>
      if allowPKCS1 && sigalg_eqb (sigMap alg) SigPKCS1 then Some SigPKCS1
      else if (negb allowPKCS1 && sigalg_eqb (sigMap alg) SigPKCS1) || sigalg_eqb (sigMap alg) SigPSS then Some SigPSS
      else None
  | KEcdsa g => if negb (sigalg_eqb (sigMap alg) SigECDSA) then None else if curveMap alg =? g then Some SigECDSA else None
  | KOther => None
  end.
(** crypto.go:336-385 sign *)
Definition sign (P : prims) (X : pki) (alg : N) (key sigInput rnd : bytes) : res bytes :=
  match hashMap alg, sig_primitive alg (x_privtype X key) with
  | Some SHA1, _ => Err (EMsg "tls.crypt.sign: Use of SHA-1 is forbidden")
  | Some h, Some s => match x_sign X key s h (digest P h sigInput) rnd with Some sg => Ok sg | None => Err (EMsg "sign") end
  | _, _ => Err (EMsg "tls.crypto.sign: Unsupported")
  end.
(** crypto.go:387-448 verify, under the key of certificate [cert]; the two switches choose alike. *)
Definition verify (P : prims) (X : pki) (alg : N) (cert sigInput sg : bytes) : res unit :=
  match hashMap alg, sig_primitive alg (x_pubtype X cert) with
  | Some SHA1, _ => Err (EMsg "tls.crypt.sign: Use of SHA-1 is forbidden")
  | Some h, Some s => if x_verify X cert s h (digest P h sigInput) sg then Ok tt else Err (EMsg "tls.verify")
  | _, _ => Err (EMsg "tls.verify: Unsupported")
  end.
(** handshake-messages.go:365-370 *)
Definition cv_sign (P : prims) (X : pki) (alg : N) (key hh rnd : bytes) : res certVerify :=
  do sg <- sign P X alg key (encodeSignatureInput hh) rnd; Ok (mkCv alg sg).
(** handshake-messages.go:372-376 *)
Definition cv_verify (P : prims) (X : pki) (cv : certVerify) (cert hh : bytes) : res unit :=
  verify P X (cv_alg cv) cert (encodeSignatureInput hh) (cv_sig cv).
