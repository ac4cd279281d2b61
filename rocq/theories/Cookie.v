(** Model of the cookie of /repo/server-state-machine.go and of /repo/cookie-protector.go. *)
From Verif Require Import Base Syntax Record Crypto Messages.

(** server-state-machine.go:69-76 *)
Record cookie := mkCookie { co_suite : N; co_hash : bytes; co_app : bytes }.
Definition co_ty : ty := TStruct (struct [(null_opts, u16); (tag 2 0 0, opaque); (tag 2 0 0, opaque)]).
Definition co_marshal (c : cookie) : res bytes := marshal co_ty (VList [VUint (co_suite c); vbytes (co_hash c); vbytes (co_app c)]).
Definition co_unmarshal (data : bytes) : res (cookie * nat) :=
  decoded co_ty (fun v => mkCookie (num_of (field v 0)) (bytes_of (field v 1)) (bytes_of (field v 2))) data.

(** server-state-machine.go:181-185. [Unmarshal] returns 0 with an error (syntax/decode.go:32-52), so the error is
    noticed unless the input is empty; input left over is not noticed. *)
Definition cookie_of (plain : bytes) : res cookie :=
  match co_unmarshal plain with
  | Ok (c, _) => Ok c
  | Err e => match plain with [] => Ok (mkCookie 0 [] []) | _ => Err e end
  | Panic => Panic | Fuel => Fuel
  end.

(** cookie-protector.go:22-23 *)
Definition cookieSecretSize : nat := 32.
Definition cookieNonceSize : nat := 32.

(** cookie-protector.go:67-86. [gcm] is AES-GCM for a key of 32 bytes, which does not fail; golang.org/x/crypto/hkdf
    is HKDF, that is extraction with the nonce as salt, then expansion. *)
Definition createAEAD (P : prims) (gcm : bytes -> aead) (secret nonce : bytes) : aead * bytes :=
  let okm := hkdfExpand P SHA256 (hkdfExtract P SHA256 (Some nonce) secret) (str "mint cookie source") 44 in
  (gcm (firstn 32 okm), skipn 32 okm).
(** cookie-protector.go:42-52. [rnd] is the nonce read from the random source; [None] is an error. *)
Definition newToken (P : prims) (gcm : bytes -> aead) (secret : bytes) (rnd : option bytes) (data : bytes) : option bytes :=
  match rnd with
  | None => None
  | Some nonce => let '(k, aeadNonce) := createAEAD P gcm secret nonce in Some (nonce ++ seal k aeadNonce [] data)
  end.
(** cookie-protector.go:55-65 *)
Definition decodeToken (P : prims) (gcm : bytes -> aead) (secret p : bytes) : option bytes :=
  if (List.length p <? cookieNonceSize)%nat then None else
  let '(k, aeadNonce) := createAEAD P gcm secret (firstn cookieNonceSize p) in
  open k aeadNonce [] (skipn cookieNonceSize p).
