(** Properties C09-C15: the record layer. Vocabulary in RecordSpec.v. *)
From Verif Require Import Base Frame FrameProofs Record RecordSpec RecordProofs RecordProofs2.

(** ** Concrete ciphers for the examples *)

(** A keyed checksum byte. *)
Definition toy (key : byte) : aead :=
  {| overhead := 1;
     seal := fun _ _ p => p ++ [key];
     open := fun _ _ c => match rev c with k :: p => if Byte.eqb k key then Some (rev p) else None | [] => None end |}.
Lemma toy_ok key : aead_ok (toy key).
Proof.
  split; intros n a p; simpl.
  - rewrite rev_app_distr. simpl. rewrite (proj2 (byte_eqb_eq key key) eq_refl), rev_involutive. reflexivity.
  - rewrite app_length. reflexivity.
Qed.
(** The same, refusing plaintexts that are all zero. *)
Definition toy_typed (key : byte) : aead :=
  {| overhead := 1; seal := seal (toy key);
     open := fun n a c => match open (toy key) n a c with
                          | Some p => if existsb (fun b => negb (Byte.eqb b x00)) p then Some p else None
                          | None => None end |}.
Lemma toy_typed_ok key : typed (toy_typed key).
Proof.
  intros n a c p. cbn [open toy_typed]. destruct (open (toy key) n a c) as [q|]; [|discriminate].
  destruct (existsb _ q) eqn:E; [|discriminate]. intros [= <-]. apply existsb_exists in E. destruct E as (b & Hb & Hz).
  apply Exists_exists. exists b. split; auto. intros ->. discriminate.
Qed.
(** One that shows its nonce. *)
Definition toy_open_nonce : aead :=
  {| overhead := 25; seal := fun n _ p => repeat x01 (List.length n) ++ [x00] ++ n ++ p; open := fun _ _ _ => None |}.
Fixpoint count_ones (b : bytes) : nat * bytes :=
  match b with x01 :: b => let '(k, r) := count_ones b in (S k, r) | _ :: r => (O, r) | [] => (O, []) end.
Definition toy_nonce_of (b : bytes) : bytes := let '(k, r) := count_ones b in firstn k r.
Lemma toy_reveals : reveals toy_nonce_of toy_open_nonce.
Proof.
  intros n a p. unfold toy_nonce_of, toy_open_nonce; cbn [seal].
  assert (E : forall k r, count_ones (repeat x01 k ++ [x00] ++ r) = (k, r)).
  { induction k as [|k IH]; intros r; [reflexivity|]. change (count_ones (repeat x01 (S k) ++ [x00] ++ r)) with (let '(q, t) := count_ones (repeat x01 k ++ [x00] ++ r) in (S q, t)). now rewrite IH. }
  rewrite E. now apply firstn_app_n.
Qed.

Definition iv12 : bytes := map b8 [1;2;3;4;5;6;7;8;9;10;11;12].
Definition keyed_core (dg : bool) (dir : direction) (epoch : N) (k : aead) : rcore :=
  setVersion (rekey (l_core (newRecordLayer dg dir [])) epoch k iv12) tls12Version.
Definition hello : bytes := map b8 [104;101;108;108;111].
Definition three : list msg := [mkMsg rtHandshake hello 0; mkMsg rtApplicationData [x00] 3; mkMsg rtAlert [] 0].

(** C09. The results of reading depend only on the bytes received, not on how the transport cut them up; key
    changes made between records, which depend only on what was read, do not matter. *)
Theorem C09_segmentation :
  forall (after : rekeying) (old : bool) (core : rcore) (c1 c2 : list rin) (data : bytes),
    keeps_transport after -> segmentation c1 data -> segmentation c2 data ->
    eventually_same (fun k => reads after old k (fresh core c1)) (fun k => reads after old k (fresh core c2)).
Proof. exact segmentation_independent. Qed.
Print Assumptions C09_segmentation.

(** Two clear records and half of a third, in one piece and byte by byte with empty reads in between. *)
Definition wire3 : bytes := map b8 [22;3;1;0;2;7;8; 23;3;1;0;1;9; 21;3;1;0].
Example C09_case :
  let core := l_core (newRecordLayer false DirRead []) in
  let c1 := [RBytes wire3] in let c2 := concat (map (fun b => [RBytes [b]; RBytes []]) wire3) in
  segmentation c1 wire3 /\ segmentation c2 wire3 /\
  reads no_rekey false 40 (fresh core c1) = [Ok (mkPt rtHandshake 0 0 (map b8 [7;8])); Ok (mkPt rtApplicationData 0 0 (map b8 [9]))] /\
  reads no_rekey false 40 (fresh core c2) = reads no_rekey false 40 (fresh core c1).
Proof.
  cbv zeta. split; [now exists [wire3]|]. split; [|split; vm_compute; reflexivity].
  exists (concat (map (fun b => [[b]; []]) wire3)). split; reflexivity.
Qed.

(** C10 (TLS). Records written under a key are read back, by any holder of the key at the same record number,
    as the same types, contents and record numbers, in order, however the bytes are cut up. *)
Theorem C10_stream_round_trip :
  forall (w r : rcore) (ms : list msg) (l' : rlayer) (input conn : list rin) (data : bytes),
    writes (fresh w input) ms = (l', Ok tt) ->
    r_datagram w = false -> r_datagram r = false -> r_dir r = DirRead -> cur_ok w -> cur_ok r ->
    in_step (cur w) (cur r) -> (exists k, c_aead (cur w) = Some k /\ aead_ok k) ->
    Forall (fun m => m_type m <> x00) ms ->
    data = concat (l_out l') -> segmentation conn data ->
    eventually (fun k => reads no_rekey false k (fresh r conn)) (delivered_from ms (c_epoch (cur r)) (c_seq (cur r))).
Proof. exact stream_round_trip. Qed.
Print Assumptions C10_stream_round_trip.

Example C10_stream_case :
  let w := keyed_core false DirWrite 3 (toy x07) in let r := keyed_core false DirRead 3 (toy x07) in
  in_step (cur w) (cur r) /\ cur_ok w /\ cur_ok r /\ Forall (fun m => m_type m <> x00) three /\
  exists l', writes (fresh w []) three = (l', Ok tt) /\ List.length (concat (l_out l')) = 30%nat /\
    reads no_rekey false 40 (fresh r (map (fun b => RBytes [b]) (concat (l_out l')))) =
      [Ok (mkPt rtHandshake 3 0 hello); Ok (mkPt rtApplicationData 3 1 [x00]); Ok (mkPt rtAlert 3 2 [])].
Proof.
  cbv zeta. split; [repeat split|]. split; [unfold cur_ok; simpl; lia|]. split; [unfold cur_ok; simpl; lia|].
  split; [repeat constructor; discriminate|].
  eexists. split; [vm_compute; reflexivity|]. split; vm_compute; reflexivity.
Qed.

(** C10 (DTLS). One datagram per record; whichever records arrive, in whatever order and however often, each
    arrival is read as the record written. (The code has no replay window, so repeats are delivered again.) *)
Theorem C10_datagram_round_trip :
  forall (w r : rcore) (ms : list msg) (l' : rlayer) (order : list nat) (old : bool),
    writes (fresh w []) ms = (l', Ok tt) ->
    r_datagram w = true -> r_datagram r = true -> r_dir r = DirRead -> cur_ok w -> cur_ok r ->
    c_aead (cur w) = c_aead (cur r) -> c_iv (cur w) = c_iv (cur r) -> c_epoch (cur w) = c_epoch (cur r) ->
    c_epoch (cur r) < 2 ^ 16 -> lookup (c_epoch (cur r)) (r_readCiphers r) <> None ->
    (exists k, c_aead (cur r) = Some k /\ aead_ok k) ->
    Forall (fun m => m_type m <> x00) ms ->
    Forall (fun i => (i < List.length ms)%nat) order ->
    c_seq (cur r) + len order <= 2 ^ 48 - 1 ->
    eventually (fun k => reads no_rekey old k (fresh r (datagrams (l_out l') order)))
      (map (fun i => delivered (nth i ms (mkMsg x00 [] 0)) (c_epoch (cur r))
                       (c_epoch (cur r) * 2 ^ 48 + (c_seq (cur w) + N.of_nat i))) order).
Proof. exact datagram_round_trip. Qed.
Print Assumptions C10_datagram_round_trip.

Example C10_datagram_case :
  let w := keyed_core true DirWrite 2 (toy x07) in let r := keyed_core true DirRead 2 (toy x07) in
  cur_ok w /\ cur_ok r /\ lookup (c_epoch (cur r)) (r_readCiphers r) = Some 1%nat /\
  exists l', writes (fresh w []) three = (l', Ok tt) /\
    reads no_rekey false 40 (fresh r (datagrams (l_out l') [2; 0; 2]%nat)) =
      [Ok (mkPt rtAlert 2 (2 * 2 ^ 48 + 2) []); Ok (mkPt rtHandshake 2 (2 * 2 ^ 48) hello); Ok (mkPt rtAlert 2 (2 * 2 ^ 48 + 2) [])].
Proof.
  cbv zeta. split; [unfold cur_ok; simpl; lia|]. split; [unfold cur_ok; simpl; lia|]. split; [reflexivity|].
  eexists. split; [vm_compute; reflexivity|]. vm_compute. reflexivity.
Qed.

(** C11. In any history of a writing layer -- writes under current or earlier keys, failing writes, key
    changes -- no two records on the wire under one installed key carry the same nonce. *)
Theorem C11_nonce_unique :
  forall (nonce_of : bytes -> bytes) (datagram : bool) (ops : list wop),
    Forall (op_reveals nonce_of) ops ->
    NoDup (map (keyed nonce_of) (emitted (newRecordLayer datagram DirWrite []) ops)).
Proof. exact nonces_unique_new. Qed.
Print Assumptions C11_nonce_unique.

Definition wops : list wop :=
  [WVersion tls12Version; WWrite 0 (mkMsg rtHandshake hello 0); WRekey 2 toy_open_nonce iv12; WWrite 1 (mkMsg rtHandshake hello 0);
   WWrite 1 (mkMsg rtHandshake (repeat x00 20000) 0); WWrite 1 (mkMsg rtHandshake hello 2);
   WRekey 3 toy_open_nonce iv12; WWrite 2 (mkMsg rtHandshake hello 0); WWrite 1 (mkMsg rtHandshake hello 0)].
Example C11_case :
  Forall (op_reveals toy_nonce_of) wops /\
  map fst (emitted (newRecordLayer true DirWrite []) wops) = [1; 1; 2; 1]%nat /\
  map (keyed toy_nonce_of) (emitted (newRecordLayer true DirWrite []) wops) =
    [(1%nat, map b8 [1;2;3;4;5;4;7;8;9;10;11;12]); (1%nat, map b8 [1;2;3;4;5;4;7;8;9;10;11;13]);
     (2%nat, map b8 [1;2;3;4;5;5;7;8;9;10;11;12]); (1%nat, map b8 [1;2;3;4;5;4;7;8;9;10;11;14])].
Proof.
  split; [|split; vm_compute; reflexivity].
  repeat constructor; apply toy_reveals.
Qed.

(** C12. Any number of complete records of the current epoch that do not authenticate each produce one error,
    and everything after them is read as if they had not been there. *)
Theorem C12_forgeries_inert :
  forall (after : rekeying) (old : bool) (r : rcore) (fs : list (bytes * bytes)) (rest : bytes) (c1 c2 : list rin),
    keeps_transport after -> (forall c e, after c (Err e) = c) -> r_dir r = DirRead -> Forall (forged r) fs ->
    segmentation c1 (concat (map wire fs) ++ rest) -> segmentation c2 rest ->
    exists errors, List.length errors = List.length fs /\ Forall is_err errors /\
      eventually_same (fun k => reads after old k (fresh r c1)) (fun k => errors ++ reads after old k (fresh r c2)).
Proof. exact forged_inert. Qed.
Print Assumptions C12_forgeries_inert.

Example C12_case :
  let r := keyed_core false DirRead 3 (toy x07) in
  let bad := (map b8 [23;3;3;0;3], map b8 [1;23;8]) in let good := map b8 [23;3;3;0;3;1;23;7] in
  Forall (forged r) [bad; bad] /\
  reads no_rekey false 9 (fresh r [RBytes (wire bad ++ wire bad ++ good)]) =
    [Err EDecrypt; Err EDecrypt; Ok (mkPt rtApplicationData 3 0 [x01])].
Proof.
  cbv zeta. split; [|vm_compute; reflexivity].
  assert (F : forged (keyed_core false DirRead 3 (toy x07)) (map b8 [23;3;3;0;3], map b8 [1;23;8])).
  { split; [split; reflexivity|]. exists (toy x07), iv12. do 3 (split; [reflexivity|]). intros E. discriminate. }
  constructor; [exact F|]. constructor; [exact F|]. constructor.
Qed.

(** C13. Reading never panics, whatever arrives and whatever errors the transport returns, provided every
    authenticated plaintext contains a content type (the excluded case is [C13_zero_plaintext_refuted]), the
    keys have usable ivs, no DTLS epoch is keyed while the current one is clear, and the record counters have
    room. *)
Theorem C13_no_panic_partial :
  forall (after : rekeying) (old : bool) (k : nat) (core : rcore) (conn : list rin),
    keeps_transport after -> (forall n c r, readable n c -> readable n (after c r)) ->
    readable (N.of_nat k) core ->
    ~ In Panic (reads after old k (fresh core conn)) /\ ~ In Fuel (reads after old k (fresh core conn)).
Proof. exact fresh_no_panic. Qed.
Print Assumptions C13_no_panic_partial.

Example C13_case : readable 1000 (keyed_core true DirRead 2 (toy_typed x07)).
Proof.
  unfold readable, keyed_core, cur_ok. cbn. repeat split; try lia.
  - constructor; [split; [cbn; lia | discriminate]|]. constructor; [|constructor].
    split; [cbn; lia|]. intros k [= <-]. split; [apply toy_typed_ok | cbn; lia].
  - destruct e as [|[[p|p|]|[p|p|]|]]; cbn in H; injection H as <- || discriminate; lia.
  - intros _ Hx. discriminate.
Qed.

(** With keys shared with the peer, a record whose authenticated content is all zeros (or empty) crashes the
    reader. *)
Theorem C13_zero_plaintext_refuted :
  exists (r : rcore) (k : aead) (conn : list rin),
    r_dir r = DirRead /\ cur_ok r /\ c_aead (cur r) = Some k /\ aead_ok k /\
    reads no_rekey false 1 (fresh r conn) = [Panic].
Proof.
  exists (keyed_core false DirRead 3 (toy x07)), (toy x07), [RBytes (map b8 [23;3;3;0;3;0;0;7])].
  split; [reflexivity|]. split; [unfold cur_ok; simpl; lia|]. split; [reflexivity|]. split; [apply toy_ok|]. vm_compute. reflexivity.
Qed.
Print Assumptions C13_zero_plaintext_refuted.

(** C14. Without encryption every payload of at most 2^14 bytes can be written. *)
Theorem C14_clear :
  forall (l : rlayer) (pt : plaintext) (i : nat),
    c_aead (get_cs (l_core l) i) = None -> c_seq (get_cs (l_core l) i) < 2 ^ 48 - 1 ->
    version_ok (l_core l) -> len (p_fragment pt) <= 2 ^ 14 ->
    exists l', writeRecordWithPadding l pt i 0 = (l', Ok tt).
Proof. exact write_clear. Qed.
Print Assumptions C14_clear.

(** With encryption, exactly those whose ciphertext also fits in 2^14 bytes. *)
Theorem C14_protected_partial :
  forall (l : rlayer) (pt : plaintext) (i : nat) (k : aead) (pad : nat),
    c_aead (get_cs (l_core l) i) = Some k -> aead_ok k -> c_seq (get_cs (l_core l) i) < 2 ^ 48 - 1 ->
    (8 <= List.length (c_iv (get_cs (l_core l) i)))%nat -> r_dir (l_core l) = DirWrite -> version_ok (l_core l) ->
    let total := len (p_fragment pt) + 1 + N.of_nat pad + N.of_nat (overhead k) in
    (total <= 2 ^ 14 -> exists l', writeRecordWithPadding l pt i pad = (l', Ok tt)) /\
    (2 ^ 14 < total -> exists e, writeRecordWithPadding l pt i pad = (l, Err e)).
Proof. exact write_protected. Qed.
Print Assumptions C14_protected_partial.

Example C14_case :
  let l := fresh (keyed_core false DirWrite 3 (toy x07)) [] in
  version_ok (l_core l) /\
  snd (writeRecordWithPadding l (mkPt rtApplicationData 0 0 (repeat x01 16382)) 1 0) = Ok tt /\
  snd (writeRecordWithPadding (newRecordLayer false DirWrite []) (mkPt rtHandshake 0 0 (repeat x01 16384)) 0 0) = Ok tt.
Proof. split; [intros H; discriminate|]. split; vm_compute; reflexivity. Qed.

Theorem C14_protected_refuted :
  exists (l : rlayer) (k : aead) (pt : plaintext) (e : err),
    c_aead (cur (l_core l)) = Some k /\ aead_ok k /\ version_ok (l_core l) /\ r_dir (l_core l) = DirWrite /\
    len (p_fragment pt) = 2 ^ 14 /\ writeRecord l pt = (l, Err e).
Proof.
  exists (fresh (keyed_core false DirWrite 3 (toy x07)) []), (toy x07), (mkPt rtApplicationData 0 0 (repeat x01 16384)),
    (EMsg "tls.record: Record size too big").
  split; [reflexivity|]. split; [apply toy_ok|]. split; [intros H; discriminate|]. split; [reflexivity|]. split; vm_compute; reflexivity.
Qed.
Print Assumptions C14_protected_refuted.

(** C15. A record protected under a retained earlier epoch is opened with the current epoch's key, so it is
    lost: the sender and the retained state agree on key, iv and epoch, yet reading reports a decryption error. *)
Theorem C15_old_epoch_refuted :
  exists (w r : rcore) (m : msg) (l' : rlayer) (i : nat) (k : aead),
    writes (fresh w []) [m] = (l', Ok tt) /\ r_datagram w = true /\ r_datagram r = true /\ r_dir r = DirRead /\
    lookup (c_epoch (cur w)) (r_readCiphers r) = Some i /\ get_cs r i = cur w /\
    c_aead (cur w) = Some k /\ aead_ok k /\
    reads no_rekey true 1 (fresh r (datagrams (l_out l') [0%nat])) = [Err EDecrypt].
Proof.
  exists (keyed_core true DirWrite 2 (toy x07)), (rekey (keyed_core true DirRead 2 (toy x07)) 3 (toy x08) iv12),
    (mkMsg rtHandshake hello 0).
  eexists. exists 1%nat, (toy x07). split; [vm_compute; reflexivity|].
  do 4 (split; [reflexivity|]). split; [reflexivity|]. split; [reflexivity|]. split; [apply toy_ok|]. vm_compute. reflexivity.
Qed.
Print Assumptions C15_old_epoch_refuted.

(** What holds: unprotected records of epoch zero are still read after keys are installed. *)
Theorem C15_clear_epoch_partial :
  forall (r : rcore) (i : nat) (ty : byte) (v : bytes) (seq : N) (body : bytes),
    r_datagram r = true -> lookup 0 (r_readCiphers r) = Some i -> c_aead (get_cs r i) = None ->
    c_epoch (get_cs r i) = 0 -> c_epoch (cur r) <> 0 -> c_seq (get_cs r i) < 2 ^ 48 - 1 ->
    In ty [rtAlert; rtHandshake; rtApplicationData; rtAck] -> List.length v = 2%nat -> seq < 2 ^ 48 -> len body <= 2 ^ 14 ->
    eventually (fun k => reads no_rekey true k (fresh r [RBytes ([ty] ++ v ++ be 8 seq ++ be 2 (len body) ++ body)]))
      [Ok (mkPt ty 0 0 body)].
Proof. exact old_clear_read. Qed.
Print Assumptions C15_clear_epoch_partial.

Example C15_case :
  let r := keyed_core true DirRead 2 (toy x07) in
  lookup 0 (r_readCiphers r) = Some 0%nat /\ c_aead (get_cs r 0) = None /\ c_epoch (cur r) = 2 /\
  reads no_rekey true 5 (fresh r [RBytes (map b8 [22; 254;253; 0;0;0;0;0;0;0;9; 0;2; 5;6])]) = [Ok (mkPt rtHandshake 0 0 (map b8 [5;6]))].
Proof. cbv zeta. do 3 (split; [reflexivity|]). vm_compute. reflexivity. Qed.
