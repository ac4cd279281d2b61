(** Model of /repo/extensions.go and /repo/handshake-messages.go: typed messages and extensions, marshalled
    through the model of package [syntax]. *)
From Verif Require Import Base Syntax Crypto.

(** ** Go values as [val] *)

Definition vbytes (b : bytes) : val := VList (map (fun x => VUint (bN x)) b).
Definition vnums (l : list N) : val := VList (map VUint l).
Definition num_of (v : val) : N := match v with VUint n => n | _ => 0 end.
Definition elems (v : val) : list val := match v with VList l => l | _ => [] end.
Definition bytes_of (v : val) : bytes := map (fun v => b8 (num_of v)) (elems v).
Definition nums_of (v : val) : list N := map num_of (elems v).
Definition field (v : val) (i : nat) : val := nth i (elems v) VNil.

(** A tag [head=h,min=a,max=b]. *)
Definition tag (h a b : Z) : fopts := mkOpts false false h a b false false false.
Definition u8 := TUint U8.
Definition u16 := TUint U16.
Definition u32 := TUint U32.
Definition opaque := TSlice u8.
Fixpoint struct (l : list (fopts * ty)) : fields := match l with [] => FNil | (o, t) :: l => FCons o t (struct l) end.

(** [syntax.Unmarshal(data, &x)]: value and bytes read. *)
Definition decoded {A} (t : ty) (of : val -> A) (data : bytes) : res (A * nat) :=
  do '(v, n) <- unmarshal (List.length data) t data; Ok (of v, n).

(** handshake-layer.go:561-570 *)
Definition safeUnmarshal {A} (un : bytes -> res (A * nat)) (data : bytes) : res A :=
  do '(a, n) <- un data;
  if negb (List.length data =? n)%nat then Err (EMsg "Invalid encoding: Extra data not consumed") else Ok a.

(** ** Handshake and extension types *)

(** common.go:34-49 *)
Definition htClientHello := x01.
Definition htServerHello := x02.
Definition htNewSessionTicket := x04.
Definition htEndOfEarlyData := x05.
Definition htHelloRetryRequest := x06.
Definition htEncryptedExtensions := x08.
Definition htCertificate := x0b.
Definition htCertificateRequest := x0d.
Definition htCertificateVerify := x0f.
Definition htFinished := x14.
Definition htKeyUpdate := x18.
Definition htMessageHash := xfe.

(** common.go:116-128 *)
Definition etServerName : N := 0.
Definition etSupportedGroups : N := 10.
Definition etSignatureAlgorithms : N := 13.
Definition etALPN : N := 16.
Definition etPreSharedKey : N := 41.
Definition etEarlyData : N := 42.
Definition etSupportedVersions : N := 43.
Definition etCookie : N := 44.
Definition etPSKKeyExchangeModes : N := 45.
Definition etTicketEarlyDataInfo : N := 46.
Definition etKeyShare : N := 51.

(** common.go:51-56 *)
Definition hrrRandomSentinel : bytes := map b8
  [0xcf; 0x21; 0xad; 0x74; 0xe5; 0x9a; 0x61; 0x11; 0xbe; 0x1d; 0x8c; 0x02; 0x1e; 0x65; 0xb8; 0x91;
   0xc2; 0xa2; 0x11; 0x16; 0x7a; 0xbb; 0x8c; 0x5e; 0x07; 0x9e; 0x09; 0xe2; 0xc8; 0xa8; 0x33; 0x9c].

(** ** Extension lists *)

(** extensions.go:19-22 *)
Record ext := mkExt { e_type : N; e_data : bytes }.
Definition ext_ty : ty := TStruct (struct [(null_opts, u16); (tag 2 0 0, opaque)]).
Definition vext (e : ext) : val := VList [VUint (e_type e); vbytes (e_data e)].
Definition ext_of (v : val) : ext := mkExt (num_of (field v 0)) (bytes_of (field v 1)).
Definition vexts (l : list ext) : val := VList (map vext l).
Definition exts_of (v : val) : list ext := map ext_of (elems v).

(** extensions.go:34-51 *)
Definition extlist_ty : ty := TStruct (struct [(tag 2 0 0, TSlice ext_ty)]).
Definition extlist_marshal (l : list ext) : res bytes := marshal extlist_ty (VList [vexts l]).
Definition extlist_unmarshal (data : bytes) : res (list ext * nat) := decoded extlist_ty (fun v => exts_of (field v 0)) data.

(** extensions.go:53-77, for an extension of type [t] whose [Marshal] returns [r]. *)
Fixpoint el_replace (l : list ext) (t : N) (data : bytes) : option (list ext) :=
  match l with
  | [] => None
  | e :: l => if e_type e =? t then Some (mkExt (e_type e) data :: l) else option_map (cons e) (el_replace l t data)
  end.
Definition el_add (l : list ext) (t : N) (r : res bytes) : res (list ext) :=
  do data <- r; Ok (match el_replace l t data with Some l => l | None => l ++ [mkExt t data] end).

(** extensions.go:79-100. A destination has a type and fills in part of a state [S]. [found] holds the types
    found so far. *)
Fixpoint el_parse_one {S} (l : list ext) (t : N) (un : S -> bytes -> res S) (found : list N) (s : S) : res (list N * S) :=
  match l with
  | [] => Ok (found, s)
  | e :: l =>
      if e_type e =? t then
        if existsb (N.eqb t) found then Err (EMsg "Duplicate extension of type") else
        do s <- un s (e_data e); el_parse_one l t un (t :: found) s
      else el_parse_one l t un found s
  end.
Fixpoint el_parse_all {S} (l : list ext) (dsts : list (N * (S -> bytes -> res S))) (found : list N) (s : S) : res (list N * S) :=
  match dsts with
  | [] => Ok (found, s)
  | (t, un) :: dsts => do '(found, s) <- el_parse_one l t un found s; el_parse_all l dsts found s
  end.
Definition el_parse {S} (l : list ext) (dsts : list (N * (S -> bytes -> res S))) (s : S) : res (list N * S) := el_parse_all l dsts [] s.

(** extensions.go:102-113: [None] is "not found", otherwise the outcome of unmarshalling the first one. *)
Fixpoint el_find {A} (l : list ext) (t : N) (un : bytes -> res (A * nat)) : option (res A) :=
  match l with
  | [] => None
  | e :: l => if e_type e =? t then Some (safeUnmarshal un (e_data e)) else el_find l t un
  end.

(** ** Extensions *)

(** extensions.go:137-178. The name is a Go string. *)
Definition sni_ty : ty := TStruct (struct [(tag 2 1 0, TSlice (TStruct (struct [(null_opts, u8); (tag 2 1 0, opaque)])))]).
Definition sni_marshal (name : bytes) : res bytes := marshal sni_ty (VList [VList [VList [VUint 0; vbytes name]]]).
Definition sni_unmarshal (data : bytes) : res (bytes * nat) :=
  do '(v, n) <- unmarshal (List.length data) sni_ty data;
  match elems (field v 0) with
  | [] => Panic
  | first :: _ => if num_of (field first 0) =? 0 then Ok (bytes_of (field first 1), n) else Err (EMsg "tls.servername: Unsupported name type")
  end.

(** extensions.go:197-304. One pair of functions per [HandshakeType]; the errors for other types and for fields
    that the chosen form does not use (lines 237, 244, 255, 302) are excluded by the argument types. *)
Record kshare := mkKs { ks_group : N; ks_data : bytes }.
Definition share_ty : ty := TStruct (struct [(null_opts, u16); (tag 2 1 0, opaque)]).
Definition vshare (k : kshare) : val := VList [VUint (ks_group k); vbytes (ks_data k)].
Definition share_of (v : val) : kshare := mkKs (num_of (field v 0)) (bytes_of (field v 1)).
Definition sizeValid (k : kshare) : bool := (List.length (ks_data k) =? keyExchangeSize (ks_group k))%nat.
Definition shares_ty : ty := TStruct (struct [(tag 2 0 0, TSlice share_ty)]).
Definition wrong_size {A} : res A := Err (EMsg "tls.keyshare: Key share has wrong size for group").
Definition ks_client_marshal (l : list kshare) : res bytes :=
  if forallb sizeValid l then marshal shares_ty (VList [VList (map vshare l)]) else wrong_size.
Definition ks_client_unmarshal (data : bytes) : res (list kshare * nat) :=
  do '(l, n) <- decoded shares_ty (fun v => map share_of (elems (field v 0))) data;
  if forallb sizeValid l then Ok (l, n) else wrong_size.
Definition ks_retry_marshal (g : N) : res bytes := marshal (TStruct (struct [(null_opts, u16)])) (VList [VUint g]).
Definition ks_retry_unmarshal (data : bytes) : res (N * nat) := decoded (TStruct (struct [(null_opts, u16)])) (fun v => num_of (field v 0)) data.
Definition ks_server_marshal (k : kshare) : res bytes :=
  if sizeValid k then marshal (TStruct (struct [(null_opts, share_ty)])) (VList [vshare k]) else wrong_size.
Definition ks_server_unmarshal (data : bytes) : res (kshare * nat) :=
  do '(k, n) <- decoded (TStruct (struct [(null_opts, share_ty)])) (fun v => share_of (field v 0)) data;
  if sizeValid k then Ok (k, n) else wrong_size.

(** extensions.go:309-342: both are a vector of 16-bit values of at least two bytes. *)
Definition list16_ty : ty := TStruct (struct [(tag 2 2 0, TSlice u16)]).
Definition list16_marshal (l : list N) : res bytes := marshal list16_ty (VList [vnums l]).
Definition list16_unmarshal (data : bytes) : res (list N * nat) := decoded list16_ty (fun v => nums_of (field v 0)) data.

(** extensions.go:362-440. One pair of functions per [HandshakeType], as for key shares (lines 400, 406 and 438
    are excluded by the argument types). *)
Record pskid := mkPid { pi_identity : bytes; pi_age : N }.
Definition pskid_ty : ty := TStruct (struct [(tag 2 1 0, opaque); (null_opts, u32)]).
Definition binder_ty : ty := TStruct (struct [(tag 1 32 0, opaque)]).
Definition vpskid (p : pskid) : val := VList [vbytes (pi_identity p); VUint (pi_age p)].
Definition pskid_of (v : val) : pskid := mkPid (bytes_of (field v 0)) (num_of (field v 1)).
Definition vbinder (b : bytes) : val := VList [vbytes b].
Definition binder_of (v : val) : bytes := bytes_of (field v 0).
Definition psk_client_ty : ty := TStruct (struct [(tag 2 7 0, TSlice pskid_ty); (tag 2 33 0, TSlice binder_ty)]).
Definition psk_client_marshal (ids : list pskid) (binders : list bytes) : res bytes :=
  marshal psk_client_ty (VList [VList (map vpskid ids); VList (map vbinder binders)]).
Definition psk_client_unmarshal (data : bytes) : res ((list pskid * list bytes) * nat) :=
  do '((ids, binders), n) <- decoded psk_client_ty (fun v => (map pskid_of (elems (field v 0)), map binder_of (elems (field v 1)))) data;
  if negb (List.length ids =? List.length binders)%nat then Err (EMsg "Lengths of identities and binders not equal") else Ok ((ids, binders), n).
Definition psk_server_marshal (i : N) : res bytes := marshal (TStruct (struct [(null_opts, u16)])) (VList [VUint i]).
Definition psk_server_unmarshal (data : bytes) : res (N * nat) := decoded (TStruct (struct [(null_opts, u16)])) (fun v => num_of (field v 0)) data.

(** extensions.go:456-470 *)
Definition modes_ty : ty := TStruct (struct [(tag 1 1 0, TSlice u8)]).
Definition modes_marshal (l : list N) : res bytes := marshal modes_ty (VList [vnums l]).
Definition modes_unmarshal (data : bytes) : res (list N * nat) := decoded modes_ty (fun v => nums_of (field v 0)) data.

(** extensions.go:475-487 *)
Definition early_marshal : res bytes := Ok [].
Definition early_unmarshal (data : bytes) : res (unit * nat) := Ok (tt, 0%nat).

(** extensions.go:493-507 *)
Definition tedi_ty : ty := TStruct (struct [(null_opts, u32)]).
Definition tedi_marshal (n : N) : res bytes := marshal tedi_ty (VList [VUint n]).
Definition tedi_unmarshal (data : bytes) : res (N * nat) := decoded tedi_ty (fun v => num_of (field v 0)) data.

(** extensions.go:514-551 *)
Definition alpn_ty : ty := TStruct (struct [(tag 2 2 0, TSlice (TStruct (struct [(tag 1 1 0, opaque)])))]).
Definition alpn_marshal (l : list bytes) : res bytes := marshal alpn_ty (VList [VList (map (fun p => VList [vbytes p]) l)]).
Definition alpn_unmarshal (data : bytes) : res (list bytes * nat) :=
  decoded alpn_ty (fun v => map (fun p => bytes_of (field p 0)) (elems (field v 0))) data.

(** extensions.go:556-607. The server forms index the version list. *)
Definition versions_ty : ty := TStruct (struct [(tag 1 2 254, TSlice u16)]).
Definition versions_client_marshal (l : list N) : res bytes := marshal versions_ty (VList [vnums l]).
Definition versions_client_unmarshal (data : bytes) : res (list N * nat) := decoded versions_ty (fun v => nums_of (field v 0)) data.
Definition version_ty : ty := TStruct (struct [(null_opts, u16)]).
Definition versions_server_marshal (l : list N) : res bytes :=
  match l with [] => Panic | v :: _ => marshal version_ty (VList [VUint v]) end.
Definition versions_server_unmarshal (data : bytes) : res (list N * nat) := decoded version_ty (fun v => [num_of (field v 0)]) data.

(** extensions.go:612-626 *)
Definition cookie_ty : ty := TStruct (struct [(tag 2 1 0, opaque)]).
Definition cookie_marshal (c : bytes) : res bytes := marshal cookie_ty (VList [vbytes c]).
Definition cookie_unmarshal (data : bytes) : res (bytes * nat) := decoded cookie_ty (fun v => bytes_of (field v 0)) data.

(** ** Messages *)

(** common.go:9-12 *)
Definition tls13Version : N := 0x0304.
Definition tls12Version : N := 0x0303.
Definition dtls12WireVersion : N := 0xfefd.

(** handshake-messages.go:27-125 *)
Record clientHello := mkCh { ch_version : N; ch_random : bytes; ch_session : bytes; ch_suites : list N; ch_exts : list ext }.
Definition ch_ty : ty := TStruct (struct
  [(null_opts, u16); (null_opts, TArray 32 u8); (tag 1 0 32, opaque); (tag 2 2 0, TSlice u16); (tag 1 1 0, opaque); (tag 2 0 0, TSlice ext_ty)]).
Definition ch_dtls_ty : ty := TStruct (struct
  [(null_opts, u16); (null_opts, TArray 32 u8); (tag 1 0 32, opaque); (null_opts, u8); (tag 2 2 0, TSlice u16); (tag 1 1 0, opaque); (tag 2 0 0, TSlice ext_ty)]).
(** The session id is not sent. *)
Definition ch_marshal (c : clientHello) : res bytes :=
  if ch_version c =? tls12Version
  then marshal ch_ty (VList [VUint (ch_version c); vbytes (ch_random c); vbytes []; vnums (ch_suites c); vbytes [x00]; vexts (ch_exts c)])
  else marshal ch_dtls_ty (VList [VUint (ch_version c); vbytes (ch_random c); vbytes []; VUint 0; vnums (ch_suites c); vbytes [x00]; vexts (ch_exts c)]).
(** [version] is what the receiver's [LegacyVersion] field holds beforehand. *)
Definition ch_unmarshal (version : N) (data : bytes) : res (clientHello * nat) :=
  let bad_comp v := negb (beqb (bytes_of v) [x00]) in
  if negb (version =? dtls12WireVersion) then
    do '(v, n) <- unmarshal (List.length data) ch_ty data;
    if bad_comp (field v 4) then Err (EMsg "tls.clienthello: Invalid compression method") else
    Ok (mkCh (num_of (field v 0)) (bytes_of (field v 1)) (bytes_of (field v 2)) (nums_of (field v 3)) (exts_of (field v 5)), n)
  else
    do '(v, n) <- unmarshal (List.length data) ch_dtls_ty data;
    if negb (num_of (field v 3) =? 0) then Err (EMsg "tls.clienthello: Invalid cookie") else
    if bad_comp (field v 5) then Err (EMsg "tls.clienthello: Invalid compression method") else
    Ok (mkCh (num_of (field v 0)) (bytes_of (field v 1)) (bytes_of (field v 2)) (nums_of (field v 4)) (exts_of (field v 6)), n).

(** [HandshakeMessage.Marshal] for a message not sent in datagrams (handshake-layer.go:45-68). *)
Definition tls_message (t : byte) (body : bytes) : bytes := [t] ++ be 3 (len body) ++ body.

(** handshake-messages.go:128-166. [psk.Unmarshal] is called directly: data after the binders is not noticed. *)
Definition binders_ty : ty := TStruct (struct [(tag 2 33 0, TSlice binder_ty)]).
Definition ch_truncated (c : clientHello) : res bytes :=
  match rev (ch_exts c) with
  | [] => Err (EMsg "tls.clienthello.truncate: No extensions")
  | e :: _ =>
      if negb (e_type e =? etPreSharedKey) then Err (EMsg "tls.clienthello.truncate: Last extension is not PSK") else
      do body <- ch_marshal c;
      let chData := tls_message htClientHello body in
      do '((_, binders), _) <- psk_client_unmarshal (e_data e);
      let binderLen := match marshal binders_ty (VList [VList (map vbinder binders)]) with Ok b => List.length b | _ => O end in
      if (List.length chData <? binderLen)%nat then Panic else Ok (firstn (List.length chData - binderLen) chData)
  end.

(** handshake-messages.go:176-195 *)
Record serverHello := mkSh { sh_version : N; sh_random : bytes; sh_session : bytes; sh_suite : N; sh_comp : N; sh_exts : list ext }.
Definition sh_ty : ty := TStruct (struct
  [(null_opts, u16); (null_opts, TArray 32 u8); (tag 1 0 32, opaque); (null_opts, u16); (null_opts, u8); (tag 2 0 0, TSlice ext_ty)]).
Definition sh_marshal (s : serverHello) : res bytes :=
  marshal sh_ty (VList [VUint (sh_version s); vbytes (sh_random s); vbytes (sh_session s); VUint (sh_suite s); VUint (sh_comp s); vexts (sh_exts s)]).
Definition sh_unmarshal (data : bytes) : res (serverHello * nat) :=
  decoded sh_ty (fun v => mkSh (num_of (field v 0)) (bytes_of (field v 1)) (bytes_of (field v 2)) (num_of (field v 3)) (num_of (field v 4)) (exts_of (field v 5))) data.

(** handshake-messages.go:210-237, for a given [VerifyDataLen]. *)
Definition fin_marshal (n : nat) (data : bytes) : res bytes :=
  if negb (List.length data =? n)%nat then Err (EMsg "tls.finished: data length mismatch") else Ok data.
Definition fin_unmarshal (n : nat) (data : bytes) : res (bytes * nat) :=
  if (List.length data <? n)%nat then Err (EMsg "tls.finished: Malformed finished; too short") else Ok (firstn n data, n).

(** handshake-messages.go:244-258 *)
Definition ee_marshal (l : list ext) : res bytes := extlist_marshal l.
Definition ee_unmarshal (data : bytes) : res (list ext * nat) := extlist_unmarshal data.

(** handshake-messages.go:271-331. A certificate is its encoding; [parses] says which byte strings
    [x509.ParseCertificate] accepts (the result's [Raw] is then the input). *)
Record certEntry := mkCe { ce_cert : bytes; ce_exts : list ext }.
Record certificate := mkCert { ct_context : bytes; ct_list : list certEntry }.
Definition ce_ty : ty := TStruct (struct [(tag 3 1 0, opaque); (tag 2 0 0, TSlice ext_ty)]).
Definition cert_ty : ty := TStruct (struct [(tag 1 0 0, opaque); (tag 3 0 0, TSlice ce_ty)]).
Definition vce (c : certEntry) : val := VList [vbytes (ce_cert c); vexts (ce_exts c)].
Definition ce_of (v : val) : certEntry := mkCe (bytes_of (field v 0)) (exts_of (field v 1)).
Definition cert_marshal (c : certificate) : res bytes := marshal cert_ty (VList [vbytes (ct_context c); VList (map vce (ct_list c))]).
Definition cert_unmarshal (parses : bytes -> bool) (data : bytes) : res (certificate * nat) :=
  do '(c, n) <- decoded cert_ty (fun v => mkCert (bytes_of (field v 0)) (map ce_of (elems (field v 1)))) data;
  if forallb (fun e => parses (ce_cert e)) (ct_list c) then Ok (c, n) else Err (EMsg "tls:certificate: Certificate failed to parse").

(** handshake-messages.go:337-363 *)
Record certVerify := mkCv { cv_alg : N; cv_sig : bytes }.
Definition cv_ty : ty := TStruct (struct [(null_opts, u16); (tag 2 0 0, opaque)]).
Definition cv_marshal (c : certVerify) : res bytes := marshal cv_ty (VList [VUint (cv_alg c); vbytes (cv_sig c)]).
Definition cv_unmarshal (data : bytes) : res (certVerify * nat) := decoded cv_ty (fun v => mkCv (num_of (field v 0)) (bytes_of (field v 1))) data.
Definition encodeSignatureInput (data : bytes) : bytes :=
  repeat x20 64 ++ str "TLS 1.3, server CertificateVerify" ++ [x00] ++ data.

(** handshake-messages.go:382-397 *)
Record certRequest := mkCr { cr_context : bytes; cr_exts : list ext }.
Definition cr_ty : ty := TStruct (struct [(tag 1 0 0, opaque); (tag 2 0 0, TSlice ext_ty)]).
Definition cr_marshal (c : certRequest) : res bytes := marshal cr_ty (VList [vbytes (cr_context c); vexts (cr_exts c)]).
Definition cr_unmarshal (data : bytes) : res (certRequest * nat) := decoded cr_ty (fun v => mkCr (bytes_of (field v 0)) (exts_of (field v 1))) data.

(** handshake-messages.go:406-443 *)
Record ticket := mkTkt { tk_lifetime : N; tk_ageAdd : N; tk_nonce : bytes; tk_ticket : bytes; tk_exts : list ext }.
Definition tkt_ty : ty := TStruct (struct [(null_opts, u32); (null_opts, u32); (tag 1 0 0, opaque); (tag 2 1 0, opaque); (tag 2 0 0, TSlice ext_ty)]).
Definition tkt_marshal (t : ticket) : res bytes :=
  marshal tkt_ty (VList [VUint (tk_lifetime t); VUint (tk_ageAdd t); vbytes (tk_nonce t); vbytes (tk_ticket t); vexts (tk_exts t)]).
Definition tkt_unmarshal (data : bytes) : res (ticket * nat) :=
  decoded tkt_ty (fun v => mkTkt (num_of (field v 0)) (num_of (field v 1)) (bytes_of (field v 2)) (bytes_of (field v 3)) (exts_of (field v 4))) data.
(** handshake-messages.go:414-431: from the bytes read from the random source ([None] is an error). *)
Definition newSessionTicket (rnd : option bytes) (lifetime : N) : res ticket :=
  match rnd with
  | None => Err (EMsg "rand")
  | Some buf => Ok (mkTkt lifetime (unbe (firstn 4 buf)) (firstn 16 (skipn 4 buf)) (skipn 20 buf) [])
  end.

(** handshake-messages.go:452-466 *)
Definition ku_ty : ty := TStruct (struct [(null_opts, u8)]).
Definition ku_marshal (r : N) : res bytes := marshal ku_ty (VList [VUint r]).
Definition ku_unmarshal (data : bytes) : res (N * nat) := decoded ku_ty (fun v => num_of (field v 0)) data.

(** handshake-messages.go:469-481 *)
Definition eoed_marshal : res bytes := Ok [].
Definition eoed_unmarshal (data : bytes) : res (unit * nat) := Ok (tt, 0%nat).

(** ** All messages and extensions as one type *)

(** The implementations of [HandshakeMessageBody] (handshake-messages.go:13-17). *)
Inductive body :=
| BClientHello (c : clientHello)
| BServerHello (s : serverHello)
| BEncryptedExtensions (l : list ext)
| BCertificate (c : certificate)
| BCertificateRequest (c : certRequest)
| BCertificateVerify (c : certVerify)
| BFinished (n : nat) (data : bytes)
| BNewSessionTicket (t : ticket)
| BKeyUpdate (r : N)
| BEndOfEarlyData.
(** The [Type] and [Marshal] methods of each (handshake-messages.go:54, 185, 215, 248, 291, 342, 387, 433, 456,
    471 and the functions above). *)
Definition body_type (b : body) : byte :=
  match b with
  | BClientHello _ => htClientHello | BServerHello _ => htServerHello | BEncryptedExtensions _ => htEncryptedExtensions
  | BCertificate _ => htCertificate | BCertificateRequest _ => htCertificateRequest | BCertificateVerify _ => htCertificateVerify
  | BFinished _ _ => htFinished | BNewSessionTicket _ => htNewSessionTicket | BKeyUpdate _ => htKeyUpdate
  | BEndOfEarlyData => htEndOfEarlyData
  end.
Definition body_marshal (b : body) : res bytes :=
  match b with
  | BClientHello c => ch_marshal c | BServerHello s => sh_marshal s | BEncryptedExtensions l => ee_marshal l
  | BCertificate c => cert_marshal c | BCertificateRequest c => cr_marshal c | BCertificateVerify c => cv_marshal c
  | BFinished n d => fin_marshal n d | BNewSessionTicket t => tkt_marshal t | BKeyUpdate r => ku_marshal r
  | BEndOfEarlyData => eoed_marshal
  end.
(** handshake-layer.go:70-101. A new [ClientHelloBody] has [LegacyVersion] 0. *)
Definition toBody (parses : bytes -> bool) (t : byte) (data : bytes) : res body :=
  if Byte.eqb t htClientHello then do c <- safeUnmarshal (ch_unmarshal 0) data; Ok (BClientHello c)
  else if Byte.eqb t htServerHello then do s <- safeUnmarshal sh_unmarshal data; Ok (BServerHello s)
  else if Byte.eqb t htEncryptedExtensions then do l <- safeUnmarshal ee_unmarshal data; Ok (BEncryptedExtensions l)
  else if Byte.eqb t htCertificate then do c <- safeUnmarshal (cert_unmarshal parses) data; Ok (BCertificate c)
  else if Byte.eqb t htCertificateRequest then do c <- safeUnmarshal cr_unmarshal data; Ok (BCertificateRequest c)
  else if Byte.eqb t htCertificateVerify then do c <- safeUnmarshal cv_unmarshal data; Ok (BCertificateVerify c)
  else if Byte.eqb t htFinished then do d <- safeUnmarshal (fin_unmarshal (List.length data)) data; Ok (BFinished (List.length data) d)
  else if Byte.eqb t htNewSessionTicket then do k <- safeUnmarshal tkt_unmarshal data; Ok (BNewSessionTicket k)
  else if Byte.eqb t htKeyUpdate then do r <- safeUnmarshal ku_unmarshal data; Ok (BKeyUpdate r)
  else if Byte.eqb t htEndOfEarlyData then do _ <- safeUnmarshal eoed_unmarshal data; Ok BEndOfEarlyData
  else Err (EMsg "tls.handshakemessage: Unsupported body type").

(** The implementations of [ExtensionBody] (extensions.go:9-13), one constructor for each form. *)
Inductive extbody :=
| XServerName (name : bytes)
| XKeyShareClient (l : list kshare) | XKeyShareRetry (g : N) | XKeyShareServer (k : kshare)
| XSupportedGroups (l : list N) | XSignatureAlgorithms (l : list N)
| XPskClient (ids : list pskid) (binders : list bytes) | XPskServer (i : N)
| XPskModes (l : list N) | XEarlyData | XTicketEarlyDataInfo (n : N) | XAlpn (l : list bytes)
| XVersionsClient (l : list N) | XVersionsServer (l : list N) | XCookie (c : bytes).
(** The [Type] and [Marshal] methods of each (the functions above). *)
Definition xb_type (x : extbody) : N :=
  match x with
  | XServerName _ => etServerName
  | XKeyShareClient _ | XKeyShareRetry _ | XKeyShareServer _ => etKeyShare
  | XSupportedGroups _ => etSupportedGroups | XSignatureAlgorithms _ => etSignatureAlgorithms
  | XPskClient _ _ | XPskServer _ => etPreSharedKey
  | XPskModes _ => etPSKKeyExchangeModes | XEarlyData => etEarlyData | XTicketEarlyDataInfo _ => etTicketEarlyDataInfo
  | XAlpn _ => etALPN | XVersionsClient _ | XVersionsServer _ => etSupportedVersions | XCookie _ => etCookie
  end.
Definition xb_marshal (x : extbody) : res bytes :=
  match x with
  | XServerName n => sni_marshal n
  | XKeyShareClient l => ks_client_marshal l | XKeyShareRetry g => ks_retry_marshal g | XKeyShareServer k => ks_server_marshal k
  | XSupportedGroups l => list16_marshal l | XSignatureAlgorithms l => list16_marshal l
  | XPskClient ids bs => psk_client_marshal ids bs | XPskServer i => psk_server_marshal i
  | XPskModes l => modes_marshal l | XEarlyData => early_marshal | XTicketEarlyDataInfo n => tedi_marshal n
  | XAlpn l => alpn_marshal l | XVersionsClient l => versions_client_marshal l | XVersionsServer l => versions_server_marshal l
  | XCookie c => cookie_marshal c
  end.
(** [Unmarshal] into a destination of the same form as [x] (the functions above). *)
Definition xb_unmarshal (x : extbody) (data : bytes) : res (extbody * nat) :=
  match x with
  | XServerName _ => do '(a, n) <- sni_unmarshal data; Ok (XServerName a, n)
  | XKeyShareClient _ => do '(a, n) <- ks_client_unmarshal data; Ok (XKeyShareClient a, n)
  | XKeyShareRetry _ => do '(a, n) <- ks_retry_unmarshal data; Ok (XKeyShareRetry a, n)
  | XKeyShareServer _ => do '(a, n) <- ks_server_unmarshal data; Ok (XKeyShareServer a, n)
  | XSupportedGroups _ => do '(a, n) <- list16_unmarshal data; Ok (XSupportedGroups a, n)
  | XSignatureAlgorithms _ => do '(a, n) <- list16_unmarshal data; Ok (XSignatureAlgorithms a, n)
  | XPskClient _ _ => do '((a, b), n) <- psk_client_unmarshal data; Ok (XPskClient a b, n)
  | XPskServer _ => do '(a, n) <- psk_server_unmarshal data; Ok (XPskServer a, n)
  | XPskModes _ => do '(a, n) <- modes_unmarshal data; Ok (XPskModes a, n)
  | XEarlyData => do '(_, n) <- early_unmarshal data; Ok (XEarlyData, n)
  | XTicketEarlyDataInfo _ => do '(a, n) <- tedi_unmarshal data; Ok (XTicketEarlyDataInfo a, n)
  | XAlpn _ => do '(a, n) <- alpn_unmarshal data; Ok (XAlpn a, n)
  | XVersionsClient _ => do '(a, n) <- versions_client_unmarshal data; Ok (XVersionsClient a, n)
  | XVersionsServer _ => do '(a, n) <- versions_server_unmarshal data; Ok (XVersionsServer a, n)
  | XCookie _ => do '(a, n) <- cookie_unmarshal data; Ok (XCookie a, n)
  end.
