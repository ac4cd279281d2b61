(** Properties C61, what is decoded is exactly what was received, and C62, the hash of a first ClientHello. *)
From Verif Require Import Base Syntax SyntaxSpec SyntaxMain Record Handshake Crypto Messages MessageProofs MessageSpec MessageProofs2 Machine.

(** ** Values of the types decoded *)

Lemma shape_bytes o v : encodable opaque o v -> vbytes (bytes_of v) = v.
Proof.
  intros K. destruct v; try contradiction. destruct K as [_ F]. unfold vbytes, bytes_of. cbn [elems]. f_equal. rewrite map_map.
  induction F as [|x l X _ IH]; [reflexivity|]. cbn [map]. rewrite IH. f_equal. destruct x; try contradiction. destruct X as [X _]. cbn [num_of].
  rewrite bN_b8, N.mod_small by exact X. reflexivity.
Qed.
Lemma shape_array n o v : encodable (TArray n u8) o v -> vbytes (bytes_of v) = v.
Proof.
  intros K. destruct v; try contradiction. destruct K as [_ F]. unfold vbytes, bytes_of. cbn [elems]. f_equal. rewrite map_map.
  induction F as [|x l X _ IH]; [reflexivity|]. cbn [map]. rewrite IH. f_equal. destruct x; try contradiction. destruct X as [X _]. cbn [num_of].
  rewrite bN_b8, N.mod_small by exact X. reflexivity.
Qed.
Lemma shape_uint s o v : encodable (TUint s) o v -> VUint (num_of v) = v.
Proof. destruct v; try contradiction. reflexivity. Qed.
Lemma shape_slice {A} t o (to : A -> val) of v : (forall x, encodable t o x -> to (of x) = x) -> encodable (TSlice t) o v -> VList (map to (map of (elems v))) = v.
Proof.
  intros T K. destruct v; try contradiction. destruct K as [_ F]. cbn [elems]. f_equal. rewrite map_map.
  induction F as [|x l X _ IH]; [reflexivity|]. cbn [map]. rewrite IH. f_equal. exact (T x X).
Qed.
Lemma shape_nums s o v : encodable (TSlice (TUint s)) o v -> vnums (nums_of v) = v.
Proof. apply (shape_slice _ _ VUint num_of). intros x. apply shape_uint. Qed.
(** The fields of a structure. *)
Ltac fields K := cbn [encodable_fields struct] in K;
  repeat match type of K with
  | match ?l with [] => False | _ :: _ => _ end => let x := fresh "x" in let l' := fresh "l" in destruct l as [|x l']; [contradiction|]; let K1 := fresh "F" in destruct K as [K1 K]; specialize (K1 eq_refl)
  | match ?l with [] => True | _ :: _ => False end => destruct l; [clear K|contradiction]
  end.
Ltac open_struct K := match type of K with encodable (TStruct _) _ ?v => let l := fresh "l" in destruct v as [|l| | |]; try contradiction; cbn [encodable] in K end; fields K.
Ltac shape := first [eapply shape_bytes; eassumption | eapply shape_array; eassumption | eapply shape_uint; eassumption | eapply shape_nums; eassumption ].
Ltac split_list := match goal with |- VList _ = VList _ => f_equal | |- ?a :: _ = ?b :: _ => apply f_equal2 | |- [] = [] => reflexivity end.
Ltac shapes := cbv [field]; cbn [elems nth]; repeat first [split_list | shape].
Lemma shape_ext o v : encodable ext_ty o v -> vext (ext_of v) = v.
Proof. unfold ext_ty, vext, ext_of. intros K. open_struct K. cbn [e_type e_data]. shapes. Qed.
Lemma shape_exts o v : encodable (TSlice ext_ty) o v -> vexts (exts_of v) = v.
Proof. apply (shape_slice _ _ vext ext_of). intros x. apply shape_ext. Qed.
Lemma shape_share o v : encodable share_ty o v -> vshare (share_of v) = v.
Proof. unfold share_ty, vshare, share_of. intros K. open_struct K. cbn [ks_group ks_data]. shapes. Qed.
Lemma shape_pskid o v : encodable pskid_ty o v -> vpskid (pskid_of v) = v.
Proof. unfold pskid_ty, vpskid, pskid_of. intros K. open_struct K. cbn [pi_identity pi_age]. shapes. Qed.
Lemma shape_binder o v : encodable binder_ty o v -> vbinder (binder_of v) = v.
Proof. unfold binder_ty, vbinder, binder_of. intros K. open_struct K. shapes. Qed.
Ltac shape2 := first [shape | eapply shape_exts; eassumption | eapply shape_share; eassumption |
  eapply (shape_slice _ _ vshare share_of); [intros ?; apply shape_share|eassumption] |
  eapply (shape_slice _ _ vpskid pskid_of); [intros ?; apply shape_pskid|eassumption] |
  eapply (shape_slice _ _ vbinder binder_of); [intros ?; apply shape_binder|eassumption] ].
Ltac shapes2 := cbv [field]; cbn [elems nth]; repeat first [split_list | shape2].
Lemma shape_ce o v : encodable ce_ty o v -> vce (ce_of v) = v.
Proof. unfold ce_ty, vce, ce_of. intros K. open_struct K. cbn [ce_cert ce_exts]. shapes2. Qed.

(** ** Decoding is exact *)

Lemma decoded_exact {A} t (to : A -> val) of data a n : plain t null_opts = true -> (forall v, encodable t null_opts v -> to (of v) = v) ->
  decoded t of data = Ok (a, n) -> marshal t (to a) = Ok (firstn n data).
Proof.
  intros P T K. unfold decoded in K. inv_bind K as [v m] U. apply Ok_inj in K. injection K as <- <-.
  rewrite T by (eapply plain_encodable; eauto). eapply plain_canonical; eauto.
Qed.
Ltac exact_by t to := eapply (decoded_exact t to); [reflexivity| |eassumption]; let v := fresh "v" in let K := fresh "K" in intros v K; unfold t in K; open_struct K;
  cbn [sh_version sh_random sh_session sh_suite sh_comp sh_exts ct_context ct_list cr_context cr_exts cv_alg cv_sig tk_lifetime tk_ageAdd tk_nonce tk_ticket tk_exts fst snd]; shapes2.
Lemma xb_exact x d y n : (forall name, x <> XServerName name) -> xb_unmarshal x d = Ok (y, n) -> xb_marshal y = Ok (firstn n d).
Proof.
  intros Ns K. destruct x; cbn [xb_unmarshal] in K; try (inv_bind K as [a m] U; apply Ok_inj in K; injection K as <- <-; cbn [xb_marshal]).
  - now destruct (Ns name).
  - unfold ks_client_unmarshal in U. inv_bind U as [l0 m0] D. destruct (forallb sizeValid l0) eqn:Z; [|discriminate]. apply Ok_inj in U. injection U as <- <-.
    unfold ks_client_marshal. rewrite Z. exact_by shares_ty (fun l => VList [VList (map vshare l)]).
  - unfold ks_retry_unmarshal in U. unfold ks_retry_marshal. eapply (decoded_exact _ (fun g => VList [VUint g])); [reflexivity| |exact U]. intros v K. open_struct K. shapes2.
  - unfold ks_server_unmarshal in U. inv_bind U as [k0 m0] D. destruct (sizeValid k0) eqn:Z; [|discriminate]. apply Ok_inj in U. injection U as <- <-.
    unfold ks_server_marshal. rewrite Z. eapply (decoded_exact _ (fun k => VList [vshare k])); [reflexivity| |exact D]. intros v K. open_struct K. shapes2.
  - unfold list16_unmarshal in U. unfold list16_marshal. exact_by list16_ty (fun l => VList [vnums l]).
  - unfold list16_unmarshal in U. unfold list16_marshal. exact_by list16_ty (fun l => VList [vnums l]).
  - inv_bind K as [[a b] m] U. apply Ok_inj in K. injection K as <- <-. cbn [xb_marshal]. unfold psk_client_unmarshal in U. inv_bind U as [[i0 b0] m0] D.
    destruct (negb _); [discriminate|]. apply Ok_inj in U. injection U as <- <- <-. unfold psk_client_marshal.
    apply (decoded_exact psk_client_ty (fun p : list pskid * list bytes => VList [VList (map vpskid (fst p)); VList (map vbinder (snd p))]) _ d (i0, b0)) in D; [exact D|reflexivity|].
    intros v K. unfold psk_client_ty in K. open_struct K. cbn [fst snd]. shapes2.
  - unfold psk_server_unmarshal in U. unfold psk_server_marshal. eapply (decoded_exact _ (fun g => VList [VUint g])); [reflexivity| |exact U]. intros v K. open_struct K. shapes2.
  - unfold modes_unmarshal in U. unfold modes_marshal. exact_by modes_ty (fun l => VList [vnums l]).
  - unfold early_unmarshal in U. apply Ok_inj in U. injection U as <- <-. reflexivity.
  - unfold tedi_unmarshal in U. unfold tedi_marshal. exact_by tedi_ty (fun n => VList [VUint n]).
  - unfold alpn_unmarshal in U. unfold alpn_marshal. eapply (decoded_exact alpn_ty (fun l => VList [VList (map (fun p => VList [vbytes p]) l)])); [reflexivity| |exact U].
    intros v K. unfold alpn_ty in K. open_struct K. cbv [field]. cbn [elems nth]. split_list. split_list; [|reflexivity].
    eapply (shape_slice _ _ (fun p => VList [vbytes p]) (fun p => bytes_of (nth 0 (elems p) VNil))); [|eassumption]. intros y K. open_struct K. shapes2.
  - unfold versions_client_unmarshal in U. unfold versions_client_marshal. exact_by versions_ty (fun l => VList [vnums l]).
  - unfold versions_server_unmarshal in U. unfold versions_server_marshal.
    assert (exists v, a = [v] /\ decoded version_ty (fun v => num_of (field v 0)) d = Ok (v, m)) as (v & -> & V).
    { unfold decoded in *. inv_bind U as [v m0] D. apply Ok_inj in U. injection U as <- <-. rewrite D. eexists. split; reflexivity. }
    exact_by version_ty (fun v => VList [VUint v]).
  - unfold cookie_unmarshal in U. unfold cookie_marshal. exact_by cookie_ty (fun c => VList [vbytes c]).
Qed.

Lemma safe_all {A} (un : bytes -> res (A * nat)) d a : safeUnmarshal un d = Ok a -> un d = Ok (a, List.length d).
Proof.
  unfold safeUnmarshal. intros K. inv_bind K as [x n] U. destruct (Nat.eqb_spec (List.length d) n) as [->|]; [|discriminate]. cbn [negb] in K. apply Ok_inj in K. now rewrite U, K.
Qed.
(** A ClientHello as it is received: the session id is not always empty. In TLS there is no cookie field. *)
Definition hello_wire (datagram : bool) (c : clientHello) : bytes :=
  be 2 (ch_version c) ++ ch_random c ++ vector 1 (ch_session c) ++ (if datagram then vector 1 [] else []) ++
  vector 2 (nums16 (ch_suites c)) ++ vector 1 [x00] ++ vector 2 (exts_wire (ch_exts c)).
Definition hello_fits (c : clientHello) : bool :=
  u16_fits (ch_version c) && (len (ch_random c) =? 32) && sized 0 32 (ch_session c) && forallb u16_fits (ch_suites c) && sized 2 65535 (nums16 (ch_suites c)) && exts_fit (ch_exts c).
Lemma hello_is c b :
  marshal ch_ty (VList [VUint (ch_version c); vbytes (ch_random c); vbytes (ch_session c); vnums (ch_suites c); vbytes [x00]; vexts (ch_exts c)]) = Ok b <->
  hello_fits c = true /\ b = hello_wire false c.
Proof. wire ch_ty; [unfold hello_fits|unfold hello_wire]; tidy; rewrite <- !andb_assoc; reflexivity. Qed.
Lemma hello_dtls_is c b :
  marshal ch_dtls_ty (VList [VUint (ch_version c); vbytes (ch_random c); vbytes (ch_session c); VUint 0; vnums (ch_suites c); vbytes [x00]; vexts (ch_exts c)]) = Ok b <->
  hello_fits c = true /\ b = hello_wire true c.
Proof. wire ch_dtls_ty; [unfold hello_fits|unfold hello_wire]; tidy; rewrite <- !andb_assoc; reflexivity. Qed.
Lemma hello_exact version d c n : ch_unmarshal version d = Ok (c, n) -> hello_fits c = true /\ firstn n d = hello_wire (version =? 0xfefd) c.
Proof.
  unfold ch_unmarshal. change dtls12WireVersion with 0xfefd. destruct (version =? 0xfefd); cbn [negb]; intros K.
  - inv_bind K as [v m] U. destruct (N.eqb_spec (num_of (field v 3)) 0) as [Z|]; [|discriminate]. cbn [negb] in K.
    destruct (beqb (bytes_of (field v 5)) [x00]) eqn:B; [|discriminate]. cbn [negb] in K. apply Ok_inj in K. injection K as <- <-. apply hello_dtls_is.
    cbn [ch_version ch_random ch_session ch_suites ch_exts].
    apply beqb_eq in B. rewrite <- B, <- Z. pose proof (proj1 (plain_encodable ch_dtls_ty _ _ _ _ eq_refl U)) as En. apply plain_canonical in U; [|reflexivity].
    etransitivity; [|exact U]. f_equal. clear U B Z. unfold ch_dtls_ty in En. open_struct En. shapes2.
  - inv_bind K as [v m] U. destruct (beqb (bytes_of (field v 4)) [x00]) eqn:B; [|discriminate]. cbn [negb] in K. apply Ok_inj in K. injection K as <- <-. apply hello_is.
    cbn [ch_version ch_random ch_session ch_suites ch_exts].
    apply beqb_eq in B. rewrite <- B. pose proof (proj1 (plain_encodable ch_ty _ _ _ _ eq_refl U)) as En. apply plain_canonical in U; [|reflexivity].
    etransitivity; [|exact U]. f_equal. clear U B. unfold ch_ty in En. open_struct En. shapes2.
Qed.
Lemma all_of (r : res bytes) (d : bytes) : r = Ok (firstn (List.length d) d) -> r = Ok d.
Proof. intros ->. f_equal. apply firstn_all. Qed.
Lemma body_exact parses t d x : toBody parses t d = Ok x -> body_type x = t /\
  match x with BClientHello c => hello_fits c = true /\ d = hello_wire false c | _ => body_fits x = true /\ d = body_wire x end.
Proof.
  unfold toBody. intros K.
  repeat match type of K with (if Byte.eqb t ?k then _ else _) = _ => destruct (Byte.eqb t k) eqn:T; [apply byte_eqb_eq in T; subst t|clear T] end; try discriminate;
    inv_bind K as c U; apply Ok_inj in K; subst x; (split; [reflexivity|]); apply safe_all in U.
  - apply hello_exact in U. now rewrite firstn_all in U.
  - change (body_fits (BServerHello c) = true /\ d = body_wire (BServerHello c)). apply body_is. cbn [body_marshal]. apply all_of.
    unfold sh_unmarshal in U. unfold sh_marshal. exact_by sh_ty (fun s => VList [VUint (sh_version s); vbytes (sh_random s); vbytes (sh_session s); VUint (sh_suite s); VUint (sh_comp s); vexts (sh_exts s)]).
  - apply (body_is (BEncryptedExtensions c) d). cbn [body_marshal]. apply all_of.
    unfold ee_unmarshal, extlist_unmarshal in U. unfold ee_marshal, extlist_marshal. exact_by extlist_ty (fun l => VList [vexts l]).
  - apply (body_is (BCertificate c) d). cbn [body_marshal]. apply all_of.
    unfold cert_unmarshal in U. inv_bind U as [c0 m] D. destruct (forallb _ _); [|discriminate]. apply Ok_inj in U. injection U as -> ->. unfold cert_marshal.
    eapply (decoded_exact cert_ty (fun c => VList [vbytes (ct_context c); VList (map vce (ct_list c))])); [reflexivity| |exact D]. intros v K. unfold cert_ty in K. open_struct K.
    cbn [ct_context ct_list]. cbv [field]. cbn [elems nth]. split_list. split_list; [shape|]. split_list; [|reflexivity].
    eapply (shape_slice _ _ vce ce_of); [intros ?; apply shape_ce|eassumption].
  - apply (body_is (BCertificateRequest c) d). cbn [body_marshal]. apply all_of.
    unfold cr_unmarshal in U. unfold cr_marshal. exact_by cr_ty (fun c => VList [vbytes (cr_context c); vexts (cr_exts c)]).
  - apply (body_is (BCertificateVerify c) d). cbn [body_marshal]. apply all_of.
    unfold cv_unmarshal in U. unfold cv_marshal. exact_by cv_ty (fun c => VList [VUint (cv_alg c); vbytes (cv_sig c)]).
  - unfold fin_unmarshal in U. rewrite Nat.ltb_irrefl, firstn_all in U. apply Ok_inj in U. injection U as <-. split; [|reflexivity]. cbn [body_fits]. unfold len. apply N.eqb_refl.
  - apply (body_is (BNewSessionTicket c) d). cbn [body_marshal]. apply all_of.
    unfold tkt_unmarshal in U. unfold tkt_marshal. exact_by tkt_ty (fun t => VList [VUint (tk_lifetime t); VUint (tk_ageAdd t); vbytes (tk_nonce t); vbytes (tk_ticket t); vexts (tk_exts t)]).
  - apply (body_is (BKeyUpdate c) d). cbn [body_marshal]. apply all_of.
    unfold ku_unmarshal in U. unfold ku_marshal. exact_by ku_ty (fun r => VList [VUint r]).
  - unfold eoed_unmarshal in U. apply Ok_inj in U. injection U as <- L. destruct d; [split; reflexivity|discriminate].
Qed.

Definition name_of (v : val) : N * bytes := (num_of (field v 0), bytes_of (field v 1)).
Definition vname (p : N * bytes) : val := VList [VUint (fst p); vbytes (snd p)].
(** One entry of a ServerNameList (extensions.go:131-134): a type and a name. *)
Definition name_wire (p : N * bytes) : bytes := be 1 (fst p) ++ vector 2 (snd p).
Definition name_fits (p : N * bytes) : bool := (fst p <? 256) && sized 1 65535 (snd p).
Lemma is_name o p : enc_is (TStruct (struct [(null_opts, u8); (tag 2 1 0, opaque)])) o (vname p) (name_fits p) (name_wire p).
Proof. unfold vname. eapply is_eq; [repeat step_enc| |]; unfold name_wire, name_fits; tidy. Qed.
Lemma sni_exact d name n : sni_unmarshal d = Ok (name, n) -> exists others,
  forallb name_fits ((0, name) :: others) = true /\ firstn n d = vector 2 (concat (map name_wire ((0, name) :: others))).
Proof.
  unfold sni_unmarshal. intros K. inv_bind K as [v m] U. destruct (elems (field v 0)) as [|first rest] eqn:El; [discriminate|].
  destruct (N.eqb_spec (num_of (field first 0)) 0) as [Z|]; [|discriminate]. apply Ok_inj in K. injection K as <- <-.
  pose proof (proj1 (plain_encodable sni_ty _ _ _ _ eq_refl U)) as En. apply plain_canonical in U; [|reflexivity].
  assert (v = VList [VList (map vname (map name_of (first :: rest)))]) as Ev.
  { rewrite <- El. clear -En. unfold sni_ty in En. open_struct En. cbv [field]. cbn [elems nth]. symmetry. split_list. split_list; [|reflexivity].
    eapply (shape_slice _ _ vname name_of); [|eassumption]. intros y K. unfold vname, name_of. open_struct K. cbn [fst snd]. shapes2. }
  rewrite Ev in U. clear Ev El En.
  eapply is_marshal in U; [|unfold sni_ty; apply is_struct; cbn [struct]; eapply is_cons; [reflexivity| |apply is_nil];
    eapply (is_slice _ 2 1 0 vname); [lia|lia|lia|]; intros a; apply is_name|reflexivity].
  destruct U as [F U]. exists (map name_of rest). cbn [map] in F, U. unfold name_of at 1 in F. unfold name_of at 1 in U. rewrite Z in F, U. cbn [map].
  apply andb_prop in F as [F _]. apply andb_prop in F as [F _]. split; [exact F|]. rewrite U, app_nil_r. reflexivity.
Qed.

(** ** C61 *)

Lemma xb_decoded x d y n : (forall name, x <> XServerName name) -> xb_unmarshal x d = Ok (y, n) -> xb_fits y = true /\ firstn n d = xb_wire y.
Proof. intros K U. apply xb_is. eapply xb_exact; eauto. Qed.
(** The value decoded from an extension's body has one encoding, and the bytes read are this encoding: nothing is skipped,
    reordered or normalised. This fails for server names only. *)
Theorem C61_extensions : forall x d y n, (forall name, x <> XServerName name) -> xb_unmarshal x d = Ok (y, n) -> xb_fits y = true /\ firstn n d = xb_wire y.
Proof. exact xb_decoded. Qed.
Print Assumptions C61_extensions.
Example C61_groups : xb_unmarshal (XSupportedGroups []) [x00; x04; x00; x1d; x00; x17; xff] = Ok (XSupportedGroups [29; 23], 6%nat).
Proof. reflexivity. Qed.

(** The same for handshake messages, of which every byte is read. A ClientHello may have a session id. *)
Theorem C61_messages : forall parses t d x, toBody parses t d = Ok x -> body_type x = t /\
  match x with BClientHello c => hello_fits c = true /\ d = hello_wire false c | _ => body_fits x = true /\ d = body_wire x end.
Proof. exact body_exact. Qed.
Print Assumptions C61_messages.
Example C61_verify : toBody (fun _ => true) htCertificateVerify [x08; x04; x00; x02; xaa; xbb] = Ok (BCertificateVerify (mkCv 0x0804 [xaa; xbb])).
Proof. reflexivity. Qed.

Theorem C61_hello : forall version d c n, ch_unmarshal version d = Ok (c, n) -> hello_fits c = true /\ firstn n d = hello_wire (version =? 0xfefd) c.
Proof. exact hello_exact. Qed.
Print Assumptions C61_hello.
Example C61_hello_read : exists c, ch_unmarshal 0x0303 (be 2 0x0303 ++ repeat x07 32 ++ vector 1 [x01; x02] ++ vector 2 (be 2 0x1301) ++ vector 1 [x00] ++ vector 2 []) = Ok (c, 45%nat) /\ ch_session c = [x01; x02].
Proof. eexists. vm_compute. split; reflexivity. Qed.

(** Of a server name list the first entry is used, which must be a host name; the others are well formed but ignored. *)
Theorem C61_server_name : forall d name n, sni_unmarshal d = Ok (name, n) -> exists others,
  forallb name_fits ((0, name) :: others) = true /\ firstn n d = vector 2 (concat (map name_wire ((0, name) :: others))).
Proof. exact sni_exact. Qed.
Print Assumptions C61_server_name.
Definition two_names : bytes := vector 2 (name_wire (0, [x61]) ++ name_wire (0, [x62])).
Example C61_two_names : sni_unmarshal two_names = Ok ([x61], 10%nat).
Proof. reflexivity. Qed.

(** So the claim is false of server names: two different bodies decode to the same value. *)
Lemma names_lost : exists d y, xb_unmarshal (XServerName []) d = Ok (y, List.length d) /\ d <> xb_wire y.
Proof. exists two_names, (XServerName [x61]). split; [reflexivity|]. vm_compute. discriminate. Qed.
Theorem C61_refuted : exists d y, xb_unmarshal (XServerName []) d = Ok (y, List.length d) /\ d <> xb_wire y.
Proof. exact names_lost. Qed.
Print Assumptions C61_refuted.

(** ** C62: the message standing for the first ClientHello after a HelloRetryRequest *)

(** It should be a handshake message whose body is the hash (RFC 8446, 4.4.1). *)
Lemma hash_message d : hm_marshal (message_hash d) = be 1 254 ++ be 3 0 ++ d.
Proof. reflexivity. Qed.
Theorem C62_partial : forall d, hm_marshal (message_hash d) = be 1 254 ++ be 3 0 ++ d.
Proof. exact hash_message. Qed.
Print Assumptions C62_partial.
(** Its length is given as 0, so transcripts with a retry differ from those of other implementations. *)
Lemma hash_message_differs : forall d, d <> [] -> len d < 2 ^ 24 -> hm_marshal (message_hash d) <> be 1 254 ++ be 3 (len d) ++ d.
Proof.
  intros d N L. rewrite hash_message. intros H. apply app_inv_head, app_inv_tail in H. apply (f_equal unbe) in H. rewrite !unbe_be_small in H by (cbn in *; lia).
  destruct d; [contradiction|]. unfold len in H. cbn [List.length] in H. lia.
Qed.
Theorem C62_differs : forall d, d <> [] -> len d < 2 ^ 24 -> hm_marshal (message_hash d) <> be 1 254 ++ be 3 (len d) ++ d.
Proof. exact hash_message_differs. Qed.
Print Assumptions C62_differs.
Example C62_hash : repeat x07 32 <> [] /\ len (repeat x07 32) < 2 ^ 24.
Proof. split; [discriminate|reflexivity]. Qed.
Lemma hash_message_wrong : exists d, len d = 32 /\ hm_marshal (message_hash d) <> be 1 254 ++ be 3 (len d) ++ d.
Proof. exists (repeat x07 32). split; [reflexivity|]. now apply hash_message_differs; apply C62_hash. Qed.
Theorem C62_refuted : exists d, len d = 32 /\ hm_marshal (message_hash d) <> be 1 254 ++ be 3 (len d) ++ d.
Proof. exact hash_message_wrong. Qed.
Print Assumptions C62_refuted.
