(** C45: what can make a connection panic over a stream. Each cause is told from the state the connection is left in. *)
From Verif Require Import Base Frame Record RecordSpec Handshake Crypto Messages Negotiation Machine Conn.

(** The record taken off the wire last is still in the frame reader. It opens under the current key, and to nothing but
    zeros: it has no content type (RFC 8446 section 5.4). *)
Definition opened_zeros (l : rlayer) : Prop :=
  exists k nonce p, c_aead (cur (l_core l)) = Some k /\ computeNonce (c_iv (cur (l_core l))) (c_seq (cur (l_core l))) = Ok nonce /\
    open k nonce (f_header (l_frame l)) (f_body (l_frame l)) = Some p /\ Forall (eq x00) p.
(** The record read last is an alert of less than two bytes. *)
Definition short_alert_read (l : rlayer) : Prop :=
  exists l0 pt, readRecord l0 = (l, Ok pt) /\ p_type pt = b8 21 /\ (List.length (p_fragment pt) < 2)%nat.
(** No record number is left under the current key. *)
Definition worn_out (l : rlayer) : Prop := 2 ^ 48 - 1 <= c_seq (cur (l_core l)).

(** The body of the handshake message received last is still in the frame reader. *)
Definition last_message (c : conn) : bytes := f_body (hl_frame (x_in (c_ctx c))).
(** A share that the elliptic curve primitive does not accept. *)
Definition bad_share (P : prims) (s : kshare) : Prop :=
  In (ks_group s) [23; 24; 25; 29] /\ exists priv, ec_agree P (ks_group s) (ks_data s) priv = None.

Inductive crash (P : prims) (c : conn) : Prop :=
| crash_zeros : opened_zeros (c_in c) -> crash P c
| crash_alert : short_alert_read (c_in c) -> crash P c
| crash_worn_in : worn_out (c_in c) -> crash P c
| crash_worn_out : worn_out (c_out c) -> crash P c
| crash_certificate k cert cr : c_hState c = Some (CWaitCV k cert cr) -> ct_list cert = [] -> crash P c
| crash_cookie ch n e : c_hState c = Some SStart -> cf_cookieProtector (c_cfg c) = None ->
    ch_unmarshal 771 (last_message c) = Ok (ch, n) -> In e (ch_exts ch) -> e_type e = 44 -> crash P c
| crash_client_share ch n e shares m s : c_hState c = Some SStart -> ch_unmarshal 771 (last_message c) = Ok (ch, n) ->
    In e (ch_exts ch) -> e_type e = 51 -> ks_client_unmarshal (e_data e) = Ok (shares, m) -> In s shares -> bad_share P s -> crash P c
| crash_server_share ws sh n e s m : c_hState c = Some (CWaitSH ws) -> sh_unmarshal (last_message c) = Ok (sh, n) ->
    In e (sh_exts sh) -> e_type e = 51 -> ks_server_unmarshal (e_data e) = Ok (s, m) -> bad_share P s -> crash P c.

(** A configuration that does not itself lead to a panic: every suite is known, no chain is empty, and the extensions are
    not changed by a handler. *)
Definition sound_config (cfg : config) : Prop :=
  cf_useDTLS cfg = false /\ Forall (fun s => s = 0x1301 \/ s = 0x1302) (cf_cipherSuites cfg) /\
  Forall (fun kp => kp_chain kp <> []) (cf_certificates cfg) /\ cf_extensionHandler cfg = None.
