(** Model of /repo/negotiation.go, with the PSK cache of /repo/conn.go. *)
From Verif Require Import Base Crypto Messages Pki.

(** negotiation.go:10-23: the version, if there is a common one. *)
Fixpoint versionNegotiation (offered supported : list N) : option N :=
  match offered with
  | [] => None
  | v :: offered => if existsb (N.eqb v) supported then Some v else versionNegotiation offered supported
  end.

(** negotiation.go:27-45, one share against the groups. [rnd n] is the randomness of the [n]th key generation. *)
Fixpoint dh_try (P : prims) (rnd : nat -> keyrand) (n : nat) (share : kshare) (groups : list N) : res (nat * option (N * bytes * bytes)) :=
  match groups with
  | [] => Ok (n, None)
  | group :: groups =>
      if negb (group =? ks_group share) then dh_try P rnd n share groups else
      match newKeyShare P (rnd n) (ks_group share) with
      | Err _ => dh_try P rnd (S n) share groups
      | Ok (pub, priv) =>
          match keyAgreement P (ks_group share) (ks_data share) priv with
          | Err _ => dh_try P rnd (S n) share groups
          | Ok z => Ok (S n, Some (group, pub, z))
          | Panic => Panic | Fuel => Fuel
          end
      | Panic => Panic | Fuel => Fuel
      end
  end.
(** negotiation.go:25-49: the group, the server's share and the secret, if a group is selected, with the number of
    keys generated. *)
Fixpoint dhNegotiation (P : prims) (rnd : nat -> keyrand) (n : nat) (shares : list kshare) (groups : list N) : res (nat * option (N * bytes * bytes)) :=
  match shares with
  | [] => Ok (n, None)
  | share :: shares =>
      do '(n, r) <- dh_try P rnd n share groups;
      match r with Some _ => Ok (n, r) | None => dhNegotiation P rnd n shares groups end
  end.

(** conn.go:21-30. Times are in nanoseconds. *)
Record psk := mkPsk {
  psk_suite : N; psk_isResumption : bool; psk_identity : bytes; psk_key : bytes; psk_nextProto : bytes;
  psk_receivedAt : Z; psk_expiresAt : Z; psk_ageAdd : N }.
(** conn.go:50-63: a map from strings. *)
Definition cache := list (bytes * psk).
Fixpoint cache_get (c : cache) (key : bytes) : option psk :=
  match c with [] => None | (k, p) :: c => if beqb k key then Some p else cache_get c key end.
Definition cache_put (c : cache) (key : bytes) (p : psk) : cache :=
  (key, p) :: filter (fun e => negb (beqb (fst e) key)) c.
(** [hex.EncodeToString] *)
Definition hexDigit (n : N) : byte := b8 (if n <? 10 then 48 + n else 87 + n).
Definition hexEncode (b : bytes) : bytes := flat_map (fun x => [hexDigit (bN x / 16); hexDigit (bN x mod 16)]) b.

(** [uint32(time.Since(t) / time.Millisecond)]: [Sub] saturates at the bounds of an int64, the division truncates. *)
Definition since (now t : Z) : Z := Z.max (- 2 ^ 63) (Z.min (2 ^ 63 - 1) (now - t)).
Definition sinceMs (now t : Z) : N := Z.to_N (Z.quot (since now t) 1000000 mod 2 ^ 32).
(** uint32 subtraction *)
Definition sub32 (a b : N) : N := (a + 2 ^ 32 - b) mod 2 ^ 32.
(** negotiation.go:51-53 *)
Definition ticketAgeTolerance : N := 5 * 1000.

(** negotiation.go:88-104: the binder for a PSK and a transcript. *)
Definition binderOf (P : prims) (params : suite) (p : psk) (context : bytes) : bytes :=
  let h := s_hash params in
  let label := if psk_isResumption p then labelResumptionBinder else labelExternalBinder in
  let earlySecret := hkdfExtract P h (Some (repeat x00 (hsize h))) (psk_key p) in
  let binderKey := deriveSecret P params earlySecret label (digest P h []) in
  computeFinishedData P params binderKey (digest P h context).

(** negotiation.go:67-80 *)
Definition ticketAgeDelta (now : Z) (p : psk) (age : N) : N :=
  let ext := sub32 age (psk_ageAdd p) in
  let known := sinceMs now (psk_receivedAt p) in
  if known <? ext then sub32 ext known else sub32 known ext.

(** negotiation.go:55-116. [i] is the index of the first identity of the list. [get] is the cache. *)
Fixpoint pskNegotiation (P : prims) (now : Z) (get : bytes -> option psk) (i : nat) (ids : list pskid) (binders : list bytes) (context : bytes)
    : res (option (nat * psk * suite)) :=
  match ids with
  | [] => Ok None
  | id :: ids =>
      match get (hexEncode (pi_identity id)) with
      | None => pskNegotiation P now get (S i) ids binders context
      | Some p =>
          if psk_isResumption p && (ticketAgeTolerance <? ticketAgeDelta now p (pi_age id)) then Err (EMsg "WARNING Potential replay for identity") else
          match cipherSuiteMap (psk_suite p) with
          | None => Err (EMsg "tls.cryptoinit: Unsupported ciphersuite from PSK")
          | Some params =>
              match nth_error binders i with
              | None => Panic
              | Some b => if beqb (binderOf P params p context) b then Ok (Some (i, p, params)) else Err (EMsg "Binder check failed identity")
              end
          end
      end
  end.

(** common.go:152-155 *)
Definition PSKModeKE : N := 0.
Definition PSKModeDHEKE : N := 1.
(** negotiation.go:118-135: using DH and using the PSK. *)
Definition pskModeNegotiation (canDoDH canDoPSK : bool) (modes : list N) : bool * bool :=
  let dhAllowed := fold_left (fun a m => a || (m =? PSKModeDHEKE)) modes false in
  let dhRequired := fold_left (fun a m => a && (m =? PSKModeDHEKE)) modes true in
  let usingPSK := canDoPSK && (negb dhRequired || canDoDH) && (0 <? List.length modes)%nat in
  (canDoDH && (dhAllowed || negb usingPSK), usingPSK).

(** conn.go:16-19 *)
Record keypair := mkKp { kp_chain : list bytes; kp_key : bytes }.
(** negotiation.go:140-155: the certificates for a name, one entry per matching name; an empty chain is an index
    out of range. *)
Fixpoint certs_for (X : pki) (name : bytes) (certs : list keypair) : res (list keypair) :=
  match certs with
  | [] => Ok []
  | c :: certs =>
      match kp_chain c with
      | [] => Panic
      | leaf :: _ =>
          do rest <- certs_for X name certs;
          Ok (map (fun _ => c) (filter (fun n => (0 <? List.length name)%nat && beqb n name) (x_names X leaf)) ++ rest)
      end
  end.
(** negotiation.go:157-168 *)
Fixpoint cert_scheme (X : pki) (schemes : list N) (certs : list keypair) : res (keypair * N) :=
  match certs with
  | [] => Err (EMsg "No certificates compatible with signature schemes")
  | c :: certs =>
      match find (fun s => schemeValidForKey X s (kp_key c)) schemes with
      | Some s => Ok (c, s)
      | None => cert_scheme X schemes certs
      end
  end.
(** negotiation.go:137-169 *)
Definition certificateSelection (X : pki) (name : option bytes) (schemes : list N) (certs : list keypair) : res (keypair * N) :=
  match name with
  | None => cert_scheme X schemes certs
  | Some name =>
      do cs <- certs_for X name certs;
      match cs with [] => Err (EMsg "No certificates available for server name") | _ => cert_scheme X schemes cs end
  end.

(** negotiation.go:171-176: using and rejected. *)
Definition earlyDataNegotiation (usingPSK gotEarlyData allowEarlyData : bool) : bool * bool :=
  let use := gotEarlyData && usingPSK && allowEarlyData in (use, gotEarlyData && negb use).

(** negotiation.go:178-195 *)
Fixpoint cipherSuiteNegotiation (p : option psk) (offered supported : list N) : res N :=
  match offered with
  | [] => Err (EMsg "No overlap between offered and supproted ciphersuites")
  | s1 :: offered =>
      let here := match p with Some p => s1 =? psk_suite p | None => existsb (N.eqb s1) supported end in
      if here then Ok s1 else cipherSuiteNegotiation p offered supported
  end.

(** negotiation.go:197-210 *)
Fixpoint alpn_loop (p : option psk) (offered supported : list bytes) : option bytes :=
  match offered with
  | [] => None
  | p1 :: offered =>
      let allowed := match p with Some p => beqb p1 (psk_nextProto p) | None => true end in
      if allowed && existsb (beqb p1) supported then Some p1 else alpn_loop p offered supported
  end.
(** negotiation.go:197-218 *)
Definition alpnNegotiation (p : option psk) (offered supported : list bytes) : res bytes :=
  match alpn_loop p offered supported with
  | Some s => Ok s
  | None =>
      match p with
      | Some p => if psk_isResumption p && (0 <? List.length offered)%nat then Err (EMsg "ALPN for PSK not provided") else Ok []
      | None => Ok []
      end
  end.
