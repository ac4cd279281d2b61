(** Wire formats of handshake messages and extensions after RFC 8446, section 4 and appendix B.3 (RFC 6066 for
    server_name, RFC 7301 for application_layer_protocol_negotiation), and the limits on their fields. *)
From Verif Require Import Base Crypto Messages.

(** A vector whose length takes [h] bytes; length limits in bytes. *)
Definition vector (h : nat) (b : bytes) : bytes := be h (len b) ++ b.
Definition sized (lo hi : N) (b : bytes) : bool := (lo <=? len b) && (len b <=? hi).
Definition u16_fits (n : N) : bool := n <? 2 ^ 16.
Definition nums16 (l : list N) : bytes := concat (map (be 2) l).

Definition ext_wire (e : ext) : bytes := be 2 (e_type e) ++ vector 2 (e_data e).
Definition ext_fits (e : ext) : bool := u16_fits (e_type e) && sized 0 65535 (e_data e).
Definition exts_wire (l : list ext) : bytes := concat (map ext_wire l).
Definition exts_fit (l : list ext) : bool := forallb ext_fits l && sized 0 65535 (exts_wire l).

(** ** Messages *)

(** In TLS there is no cookie field. The session id is always empty, compression is the null method. *)
Definition ch_wire (c : clientHello) : bytes :=
  be 2 (ch_version c) ++ ch_random c ++ vector 1 [] ++ (if ch_version c =? 0x0303 then [] else vector 1 []) ++
  vector 2 (nums16 (ch_suites c)) ++ vector 1 [x00] ++ vector 2 (exts_wire (ch_exts c)).
Definition ch_fits (c : clientHello) : bool :=
  u16_fits (ch_version c) && (len (ch_random c) =? 32) && forallb u16_fits (ch_suites c) && sized 2 65535 (nums16 (ch_suites c)) && exts_fit (ch_exts c).

Definition sh_wire (s : serverHello) : bytes :=
  be 2 (sh_version s) ++ sh_random s ++ vector 1 (sh_session s) ++ be 2 (sh_suite s) ++ be 1 (sh_comp s) ++ vector 2 (exts_wire (sh_exts s)).
Definition sh_fits (s : serverHello) : bool :=
  u16_fits (sh_version s) && (len (sh_random s) =? 32) && sized 0 32 (sh_session s) && u16_fits (sh_suite s) && (sh_comp s <? 256) && exts_fit (sh_exts s).

Definition ce_wire (e : certEntry) : bytes := vector 3 (ce_cert e) ++ vector 2 (exts_wire (ce_exts e)).
Definition ce_fits (e : certEntry) : bool := sized 1 16777215 (ce_cert e) && exts_fit (ce_exts e).
Definition cert_wire (c : certificate) : bytes := vector 1 (ct_context c) ++ vector 3 (concat (map ce_wire (ct_list c))).
Definition cert_fits (c : certificate) : bool :=
  sized 0 255 (ct_context c) && forallb ce_fits (ct_list c) && sized 0 16777215 (concat (map ce_wire (ct_list c))).

Definition tkt_wire (t : ticket) : bytes :=
  be 4 (tk_lifetime t) ++ be 4 (tk_ageAdd t) ++ vector 1 (tk_nonce t) ++ vector 2 (tk_ticket t) ++ vector 2 (exts_wire (tk_exts t)).
Definition tkt_fits (t : ticket) : bool :=
  (tk_lifetime t <? 2 ^ 32) && (tk_ageAdd t <? 2 ^ 32) && sized 0 255 (tk_nonce t) && sized 1 65535 (tk_ticket t) && exts_fit (tk_exts t).

Definition body_wire (b : body) : bytes :=
  match b with
  | BClientHello c => ch_wire c
  | BServerHello s => sh_wire s
  | BEncryptedExtensions l => vector 2 (exts_wire l)
  | BCertificate c => cert_wire c
  | BCertificateRequest c => vector 1 (cr_context c) ++ vector 2 (exts_wire (cr_exts c))
  | BCertificateVerify c => be 2 (cv_alg c) ++ vector 2 (cv_sig c)
  | BFinished _ d => d
  | BNewSessionTicket t => tkt_wire t
  | BKeyUpdate r => be 1 r
  | BEndOfEarlyData => []
  end.
Definition body_fits (b : body) : bool :=
  match b with
  | BClientHello c => ch_fits c
  | BServerHello s => sh_fits s
  | BEncryptedExtensions l => exts_fit l
  | BCertificate c => cert_fits c
  | BCertificateRequest c => sized 0 255 (cr_context c) && exts_fit (cr_exts c)
  | BCertificateVerify c => u16_fits (cv_alg c) && sized 0 65535 (cv_sig c)
  | BFinished n d => len d =? N.of_nat n
  | BNewSessionTicket t => tkt_fits t
  | BKeyUpdate r => r <? 256
  | BEndOfEarlyData => true
  end.

(** ** Extensions *)

Definition share_wire (k : kshare) : bytes := be 2 (ks_group k) ++ vector 2 (ks_data k).
(** Public key sizes by group: P-256, P-384, P-521, X25519, FFDHE 2048 to 8192. *)
Definition share_size (g : N) : N :=
  match g with
  | 23 => 65 | 24 => 97 | 25 => 133 | 29 => 32 | 256 => 256 | 257 => 384 | 258 => 512 | 259 => 768 | 260 => 1024 | _ => 0
  end.
(** A share has at least one byte, so the group must be one of these. *)
Definition share_fits (k : kshare) : bool := u16_fits (ks_group k) && (len (ks_data k) =? share_size (ks_group k)) && (1 <=? len (ks_data k)).
Definition shares_wire (l : list kshare) : bytes := concat (map share_wire l).
Definition pskid_wire (p : pskid) : bytes := vector 2 (pi_identity p) ++ be 4 (pi_age p).
Definition pskids_wire (l : list pskid) : bytes := concat (map pskid_wire l).
Definition binders_wire (l : list bytes) : bytes := concat (map (vector 1) l).
Definition names_wire (l : list bytes) : bytes := concat (map (vector 1) l).

Definition xb_wire (x : extbody) : bytes :=
  match x with
  | XServerName n => vector 2 (be 1 0 ++ vector 2 n)
  | XKeyShareClient l => vector 2 (shares_wire l)
  | XKeyShareRetry g => be 2 g
  | XKeyShareServer k => share_wire k
  | XSupportedGroups l | XSignatureAlgorithms l => vector 2 (nums16 l)
  | XPskClient ids bs => vector 2 (pskids_wire ids) ++ vector 2 (binders_wire bs)
  | XPskServer i => be 2 i
  | XPskModes l => vector 1 (concat (map (be 1) l))
  | XEarlyData => []
  | XTicketEarlyDataInfo n => be 4 n
  | XAlpn l => vector 2 (names_wire l)
  | XVersionsClient l => vector 1 (nums16 l)
  | XVersionsServer l => be 2 (hd 0 l)
  | XCookie c => vector 2 c
  end.
Definition xb_fits (x : extbody) : bool :=
  match x with
  | XServerName n => sized 1 65535 n && sized 1 65535 (be 1 0 ++ vector 2 n)
  | XKeyShareClient l => forallb share_fits l && sized 0 65535 (shares_wire l)
  | XKeyShareRetry g => u16_fits g
  | XKeyShareServer k => share_fits k
  | XSupportedGroups l | XSignatureAlgorithms l => forallb u16_fits l && sized 2 65535 (nums16 l)
  | XPskClient ids bs =>
      forallb (fun p => sized 1 65535 (pi_identity p) && (pi_age p <? 2 ^ 32)) ids && sized 7 65535 (pskids_wire ids) &&
      forallb (sized 32 255) bs && sized 33 65535 (binders_wire bs)
  | XPskServer i => u16_fits i
  | XPskModes l => forallb (fun n => n <? 256) l && sized 1 255 (concat (map (be 1) l))
  | XEarlyData => true
  | XTicketEarlyDataInfo n => n <? 2 ^ 32
  | XAlpn l => forallb (sized 1 255) l && sized 2 65535 (names_wire l)
  | XVersionsClient l => forallb u16_fits l && sized 2 254 (nums16 l)
  | XVersionsServer l => match l with [] => false | v :: _ => u16_fits v end
  | XCookie c => sized 1 65535 c
  end.
