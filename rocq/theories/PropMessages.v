(** Properties C29-C31 and C57: extension lists, message encodings, the binder transcript prefix. Wire formats in
    MessageSpec.v. *)
From Verif Require Import Base Syntax Crypto Messages MessageSpec MessageProofs MessageProofs2 MessageProofs3.

(** ** Messages for the examples *)

Definition sni0 : extbody := XServerName (str "example.com").
Definition groups0 : extbody := XSupportedGroups [29; 23].
Definition share0 : extbody := XKeyShareClient [mkKs 29 (repeat x42 32)].
Definition alpn0 : extbody := XAlpn [str "h2"; str "http/1.1"].
Definition cookie0 : extbody := XCookie (str "crumbs").
Definition enc0 (x : extbody) : bytes := match xb_marshal x with Ok b => b | _ => [] end.
Definition exts0 : list ext := map (fun x => mkExt (xb_type x) (enc0 x)) [sni0; groups0; share0; alpn0].
Definition hello0 (l : list ext) : clientHello := mkCh 0x0303 (repeat x11 32) [] [0x1301; 0x1302] l.

(** ** C29: extension lists *)

(** [Add] makes [Find] return what was marshalled, whatever is read with. *)
Theorem C29_add_find :
  forall (A : Type) (l l' : list ext) (t : N) (data : bytes) (un : bytes -> res (A * nat)),
    el_add l t (Ok data) = Ok l' -> el_find l' t un = Some (safeUnmarshal un data).
Proof. intros A l l' t data un. exact (add_find l t data l' un). Qed.
Print Assumptions C29_add_find.

(** For each kind of extension that is the extension added. *)
Theorem C29_add_find_typed :
  forall (l l' : list ext) (x : extbody), proper x -> el_add l (xb_type x) (xb_marshal x) = Ok l' -> el_find l' (xb_type x) (xb_unmarshal x) = Some (Ok x).
Proof. intros l l' x. exact (add_typed l x l'). Qed.
Print Assumptions C29_add_find_typed.

(** An extension that fails to marshal changes nothing; otherwise the one of this type is replaced, others stay as
    they are, and types stay unique. *)
Theorem C29_add_others :
  forall (l l' : list ext) (t t' : N) (r : res bytes), el_add l t r = Ok l' -> t' <> t ->
    of_type t' l' = of_type t' l /\ forall (A : Type) (un : bytes -> res (A * nat)), el_find l' t' un = el_find l t' un.
Proof. intros l l' t t' r H Ht. split; [exact (add_others l t r l' t' H Ht)|]. intros A un. exact (add_find_others l t r l' t' un H Ht). Qed.
Print Assumptions C29_add_others.
Theorem C29_add_unique :
  forall (l l' : list ext) (t : N) (data : bytes), el_add l t (Ok data) = Ok l' -> NoDup (map e_type l) ->
    NoDup (map e_type l') /\ of_type t l' = [mkExt t data].
Proof. intros l l' t data. exact (add_unique l t data l'). Qed.
Print Assumptions C29_add_unique.

(** If [Parse] succeeds it found exactly the types looked for and present, each of which occurs once. *)
Theorem C29_parse :
  forall (S : Type) (l : list ext) (dsts : list (N * (S -> bytes -> res S))) (s s' : S) (found : list N),
    el_parse l dsts s = Ok (found, s') ->
    forall t, (In t found <-> In t (map fst dsts) /\ In t (map e_type l)) /\ (In t (map fst dsts) -> (List.length (of_type t l) <= 1)%nat).
Proof. intros S l dsts s s' found. exact (parse_spec l dsts s found s'). Qed.
Print Assumptions C29_parse.

Example C29_case :
  NoDup (map e_type exts0) /\ proper alpn0 /\ proper cookie0 /\
  (exists l', el_add exts0 (xb_type cookie0) (xb_marshal cookie0) = Ok l' /\ List.length l' = 5%nat) /\
  (exists l', el_add exts0 16 (xb_marshal (XAlpn [str "h3"])) = Ok l' /\ List.length l' = 4%nat /\
    el_find l' 16 (xb_unmarshal alpn0) = Some (Ok (XAlpn [str "h3"]))).
Proof.
  split. { repeat (apply NoDup_cons; [vm_compute; intuition discriminate|]). apply NoDup_nil. }
  split; [exact I|]. split; [exact I|]. split; eexists; (split; [vm_compute; reflexivity|]); [reflexivity|]. split; vm_compute; reflexivity.
Qed.
(** Looking for the cookie (44) and the groups (10), of which there is one; twice the groups is an error. *)
Definition count_dst : list (N * (nat -> bytes -> res nat)) := [(44, fun n _ => Ok (n + 100)%nat); (10, fun n _ => Ok (n + 1)%nat)].
Example C29_parse_case :
  el_parse exts0 count_dst 0%nat = Ok ([10], 1%nat) /\
  el_parse (exts0 ++ [mkExt 10 []]) count_dst 0%nat = Err (EMsg "Duplicate extension of type").
Proof. split; vm_compute; reflexivity. Qed.

(** Without the condition [proper]: a pre_shared_key with a binder too many can be added but not looked up. *)
Theorem C29_unequal_refuted :
  exists x l', el_add [] (xb_type x) (xb_marshal x) = Ok l' /\ el_find l' (xb_type x) (xb_unmarshal x) <> Some (Ok x).
Proof.
  exists (XPskClient [mkPid (str "id") 0] [repeat x01 32; repeat x02 32]). eexists. split; [vm_compute; reflexivity|]. vm_compute. discriminate.
Qed.
Print Assumptions C29_unequal_refuted.

(** ** C30: round trips *)

(** For all messages except ClientHellos with a session id or of DTLS; [parses] says what is a certificate, and
    the certificates of the message are. *)
Theorem C30_round_trip_partial :
  forall (parses : bytes -> bool) (x : body) (b : bytes), receivable parses x -> body_marshal x = Ok b -> toBody parses (body_type x) b = Ok x.
Proof. exact body_back. Qed.
Print Assumptions C30_round_trip_partial.

(** A DTLS ClientHello, as the server reads it: into a body with [LegacyVersion] set beforehand. *)
Theorem C30_dtls_hello :
  forall (c : clientHello) (b : bytes), ch_version c <> 0x0303 -> ch_session c = [] -> ch_marshal c = Ok b -> safeUnmarshal (ch_unmarshal 0xfefd) b = Ok c.
Proof. exact ch_dtls_safe. Qed.
Print Assumptions C30_dtls_hello.

(** The extensions in the messages. *)
Theorem C30_extensions :
  forall (x : extbody) (b : bytes), proper x -> xb_marshal x = Ok b -> xb_unmarshal x b = Ok (x, List.length b).
Proof. exact xb_back. Qed.
Print Assumptions C30_extensions.

Definition cert0 : body := BCertificate (mkCert (str "ctx") [mkCe (str "leaf") []; mkCe (str "ca") exts0]).
Definition ticket0 : body := BNewSessionTicket (mkTkt 3600 12345678 (repeat x07 16) (repeat x08 16) [mkExt 42 [x00; x00; x10; x00]]).
Example C30_case :
  receivable (fun _ => true) (BClientHello (hello0 exts0)) /\ is_ok (body_marshal (BClientHello (hello0 exts0))) /\
  receivable (fun _ => true) cert0 /\ is_ok (body_marshal cert0) /\ is_ok (body_marshal ticket0) /\
  is_ok (body_marshal (BFinished 32 (repeat x09 32))) /\ is_ok (ch_marshal (mkCh 0xfefd (repeat x11 32) [] [0x1301] exts0)) /\
  proper share0 /\ is_ok (xb_marshal share0).
Proof.
  split; [split; reflexivity|]. split; [vm_compute; eexists; reflexivity|]. split; [reflexivity|]. do 4 (split; [vm_compute; eexists; reflexivity|]).
  split; [exact I|]. vm_compute. eexists. reflexivity.
Qed.

(** [Marshal] does not write the session id. *)
Theorem C30_session_id_refuted :
  exists (c : clientHello) (b : bytes), ch_version c = 0x0303 /\ body_marshal (BClientHello c) = Ok b /\
    exists c', toBody (fun _ => true) htClientHello b = Ok (BClientHello c') /\ c' <> c.
Proof.
  exists (mkCh 0x0303 (repeat x11 32) [x05] [0x1301] []). eexists. split; [reflexivity|]. split; [vm_compute; reflexivity|].
  eexists. split; [vm_compute; reflexivity|]. discriminate.
Qed.
Print Assumptions C30_session_id_refuted.
(** [ToBody] cannot read the ClientHello of DTLS, which has another field. *)
Theorem C30_dtls_tobody_refuted :
  exists (c : clientHello) (b : bytes), ch_session c = [] /\ body_marshal (BClientHello c) = Ok b /\
    forall parses, is_err (toBody parses htClientHello b).
Proof.
  exists (mkCh 0xfefd (repeat x11 32) [] [0x1301] exts0). eexists. split; [reflexivity|]. split; [vm_compute; reflexivity|].
  intros parses. vm_compute. eexists. reflexivity.
Qed.
Print Assumptions C30_dtls_tobody_refuted.

(** ** C31: the binder transcript prefix *)

(** The message is the truncated message followed by the binder list. *)
Theorem C31_prefix :
  forall (c : clientHello) (front : list ext) (ids : list pskid) (binders : list bytes) (e body : bytes),
    ch_exts c = front ++ [mkExt 41 e] -> psk_client_marshal ids binders = Ok e -> List.length ids = List.length binders -> ch_marshal c = Ok body ->
    exists pre, ch_truncated c = Ok pre /\ tls_message x01 body = pre ++ vector 2 (binders_wire binders).
Proof. intros c front ids binders e body. exact (truncated_prefix c front e ids binders body). Qed.
Print Assumptions C31_prefix.

(** Other binders of the same lengths give the same truncated message. *)
Theorem C31_independent :
  forall (c : clientHello) (front : list ext) (ids : list pskid) (binders binders' : list bytes) (e e' body : bytes),
    Forall2 (fun a b : bytes => len a = len b) binders binders' ->
    psk_client_marshal ids binders = Ok e -> psk_client_marshal ids binders' = Ok e' -> List.length ids = List.length binders ->
    ch_marshal (with_exts c (front ++ [mkExt 41 e])) = Ok body ->
    ch_truncated (with_exts c (front ++ [mkExt 41 e'])) = ch_truncated (with_exts c (front ++ [mkExt 41 e])).
Proof. exact truncated_same. Qed.
Print Assumptions C31_independent.

Definition ids31 : list pskid := [mkPid (str "ticket one") 77; mkPid (str "x") 0].
Definition binders31 (k : byte) : list bytes := [repeat k 32; repeat k 48].
Definition psk31 (k : byte) : bytes := enc0 (XPskClient ids31 (binders31 k)).
Example C31_case :
  psk_client_marshal ids31 (binders31 x01) = Ok (psk31 x01) /\ psk_client_marshal ids31 (binders31 x02) = Ok (psk31 x02) /\
  Forall2 (fun a b : bytes => len a = len b) (binders31 x01) (binders31 x02) /\
  is_ok (ch_marshal (hello0 (exts0 ++ [mkExt 41 (psk31 x01)]))) /\ psk31 x01 <> psk31 x02 /\
  match ch_truncated (hello0 (exts0 ++ [mkExt 41 (psk31 x01)])) with Ok p => len p = 168 | _ => False end.
Proof.
  split; [vm_compute; reflexivity|]. split; [vm_compute; reflexivity|]. split; [repeat constructor|]. split; [vm_compute; eexists; reflexivity|].
  split; [vm_compute; discriminate|]. vm_compute. reflexivity.
Qed.

(** Bytes after the binders in the extension go unnoticed, and then what is cut off is not the binder list. *)
Theorem C31_trailing_refuted :
  exists (c : clientHello) (ids : list pskid) (binders : list bytes) (e body pre : bytes) (n : nat),
    ch_exts c = [mkExt 41 e] /\ psk_client_unmarshal e = Ok ((ids, binders), n) /\ ch_marshal c = Ok body /\ ch_truncated c = Ok pre /\
    tls_message x01 body <> pre ++ vector 2 (binders_wire binders).
Proof.
  exists (hello0 [mkExt 41 (psk31 x01 ++ [x00])]), ids31, (binders31 x01), (psk31 x01 ++ [x00]). do 3 eexists.
  split; [reflexivity|]. split; [vm_compute; reflexivity|]. split; [vm_compute; reflexivity|]. split; [vm_compute; reflexivity|].
  vm_compute. discriminate.
Qed.
Print Assumptions C31_trailing_refuted.

(** ** C57: wire formats *)

(** A message marshals if and only if its fields are within their limits, and then to the standard's encoding. *)
Theorem C57_messages :
  forall (x : body) (b : bytes), body_marshal x = Ok b <-> body_fits x = true /\ b = body_wire x.
Proof. exact body_is. Qed.
Print Assumptions C57_messages.
Theorem C57_extensions :
  forall (x : extbody) (b : bytes), xb_marshal x = Ok b <-> xb_fits x = true /\ b = xb_wire x.
Proof. exact xb_is. Qed.
Print Assumptions C57_extensions.

Example C57_case :
  body_fits (BClientHello (hello0 exts0)) = true /\ body_fits cert0 = true /\ body_fits ticket0 = true /\ xb_fits share0 = true /\
  xb_fits (XPskClient ids31 (binders31 x01)) = true /\ body_fits (BFinished 32 []) = false /\ xb_fits (XCookie []) = false /\
  xb_marshal groups0 = Ok [x00; x04; x00; x1d; x00; x17].
Proof. repeat split; vm_compute; reflexivity. Qed.
