(** Proofs about the record layer. *)
From Verif Require Import Base Frame FrameProofs Record RecordSpec.

(** ** Reading against a direct parse of the byte stream *)

Lemma recordFraming_lawful b : lawful_framing (recordFraming b).
Proof. intros h _. eexists. split; [reflexivity|]. repeat split; discriminate. Qed.
Lemma recordHeaderLen_pos b : (0 < headerLen (recordFraming b))%nat.
Proof. destruct b; simpl; lia. Qed.

Fixpoint spec_reads (after : rekeying) (old : bool) (n : nat) (core : rcore) (data : bytes) : list (res plaintext) :=
  match n with
  | O => []
  | S n =>
      match first_frame (recordFraming (r_datagram core)) data with
      | Some (Ok (h, b), rest) =>
          let '(core, r) := handleFrame core old h b in
          match r with
          | Panic => [Panic]
          | Fuel => [Fuel]
          | Ok _ => r :: spec_reads after old n (after core r) rest
          | Err e => if is_wb e then spec_reads after old n core rest
                     else r :: spec_reads after old n (after core r) rest
          end
      | _ => []
      end
  end.

Lemma handleFrame_datagram r old h b core x : handleFrame r old h b = (core, x) -> r_datagram core = r_datagram r.
Proof.
  unfold handleFrame. destruct h as [|t h]; [now intros [= <- <-]|].
  destruct (negb _); [now intros [= <- <-]|]. destruct (_ <? _); [now intros [= <- <-]|].
  destruct (bind _ _) as [[[pt i] c']|e| |]; intros [= <- <-]; reflexivity.
Qed.

Lemma first_frame_nowb b data r rest :
  first_frame (recordFraming b) data = Some (r, rest) -> exists h bd, r = Ok (h, bd).
Proof.
  unfold first_frame. destruct (_ <? _)%nat; [discriminate|]. cbn [recordFraming frameLen].
  destruct (_ <? _)%nat; [discriminate|]. intros [= <- <-]. eauto.
Qed.

Lemma reads_stuck after old k l :
  l_cached l = None -> fr_ok (recordFraming (r_datagram (l_core l))) (l_frame l) -> l_in l = [] ->
  first_frame (recordFraming (r_datagram (l_core l))) (pending (l_frame l)) = None ->
  reads after old k l = [].
Proof.
  revert l. induction k as [|k IH]; intros l Hc F Hi Hn; [reflexivity|]. cbn [reads]. unfold readRecordE, nextRecord. rewrite Hc, Hi.
  destruct (nextFrame_spec _ [] (l_frame l) (recordFraming_lawful _) F (Forall_nil _)) as (c' & f' & r & E & F' & N' & Hl & H).
  rewrite E. simpl data_of in H. rewrite app_nil_r in H. destruct c'; [|simpl in Hl; lia]. simpl data_of in H. rewrite !app_nil_r in H.
  destruct H as [H|(-> & Hp & _)]; [rewrite Hn in H; discriminate|].
  cbn [is_wb WouldBlock]. rewrite N.eqb_refl. apply IH; simpl; auto. now rewrite Hp.
Qed.

Lemma reads_spec after old : keeps_transport after ->
  forall n m l k,
    l_cached l = None -> fr_ok (recordFraming (r_datagram (l_core l))) (l_frame l) -> no_errors (l_in l) ->
    (List.length (pending (l_frame l) ++ data_of (l_in l)) <= n)%nat ->
    (List.length (l_in l) + List.length (pending (l_frame l) ++ data_of (l_in l)) <= m)%nat ->
    (m <= k)%nat ->
    reads after old k l = spec_reads after old n (l_core l) (pending (l_frame l) ++ data_of (l_in l)).
Proof.
  intros KT n m. revert n. induction m as [|m IH]; intros n l k Hc F E Hn Hm Hk.
  { destruct (l_in l) eqn:Ei; [|simpl in Hm; lia]. simpl data_of in *. rewrite app_nil_r in *.
    destruct (pending (l_frame l)) eqn:Ep; [|simpl in Hm; lia].
    assert (Hf : first_frame (recordFraming (r_datagram (l_core l))) [] = None).
    { unfold first_frame. destruct (Nat.ltb_spec (@List.length byte []) (headerLen (recordFraming (r_datagram (l_core l))))); auto.
      simpl List.length in *. pose proof (recordHeaderLen_pos (r_datagram (l_core l))). lia. }
    rewrite reads_stuck; auto; [|now rewrite Ep].
    destruct n; cbn [spec_reads]; [reflexivity|]. now rewrite Hf. }
  destruct k as [|k]; [lia|]. cbn [reads]. unfold readRecordE, nextRecord. rewrite Hc.
  destruct (nextFrame_spec _ (l_in l) (l_frame l) (recordFraming_lawful (r_datagram (l_core l))) F E) as (c' & f' & r & E1 & F' & N' & Hl & H).
  rewrite E1.
  destruct H as [H|(-> & Hp & Hcase)].
  - pose proof (first_frame_shorter _ _ _ _ (recordHeaderLen_pos _) H) as Hsh.
    destruct (first_frame_nowb _ _ _ _ H) as (h & bd & ->). cbn [l_core].
    destruct n as [|n]; [lia|]. cbn [spec_reads]. rewrite H.
    destruct (handleFrame (l_core l) old h bd) as [core x] eqn:Eh.
    pose proof (handleFrame_datagram _ _ _ _ _ _ Eh) as Ed.
    destruct x as [pt|e| |]; cbn [l_core l_frame l_in l_out l_cached]; try reflexivity.
    + f_equal. rewrite (IH n); cbn [l_core l_frame l_in l_out l_cached]; auto; try lia. rewrite KT, Ed; auto.
    + destruct (is_wb e).
      * rewrite (IH n); cbn [l_core l_frame l_in l_out l_cached]; auto; try lia. rewrite Ed; auto.
      * f_equal. rewrite (IH n); cbn [l_core l_frame l_in l_out l_cached]; auto; try lia. rewrite KT, Ed; auto.
  - cbn [is_wb WouldBlock l_core l_frame l_in l_out l_cached]. rewrite N.eqb_refl.
    destruct Hcase as [Hlt|[-> Hff]].
    + rewrite (IH n); cbn [l_core l_frame l_in l_out l_cached]; auto; rewrite ?Hp; auto; lia.
    + rewrite reads_stuck; cbn [l_core l_frame l_in l_out l_cached]; auto.
      simpl data_of in Hp. rewrite app_nil_r in Hp. rewrite <- Hp.
      destruct n; cbn [spec_reads]; [reflexivity|]. now rewrite Hff.
Qed.

Lemma segmentation_data conn data : segmentation conn data -> no_errors conn /\ data_of conn = data.
Proof.
  intros (chunks & -> & <-). induction chunks as [|c chunks [IH1 IH2]]; simpl; [split; auto; constructor|].
  split; [constructor; eauto|]. now rewrite IH2.
Qed.

Lemma reads_fresh after old core conn data : keeps_transport after -> segmentation conn data ->
  forall n, (List.length data <= n)%nat ->
  eventually (fun k => reads after old k (fresh core conn)) (spec_reads after old n core data).
Proof.
  intros KT S n Hn. destruct (segmentation_data _ _ S) as [E D].
  exists (List.length conn + List.length data)%nat. intros k Hk.
  rewrite (reads_spec after old KT n (List.length conn + List.length data)); cbn [fresh l_core l_frame l_in l_cached pending newFrameReader f_state f_rem app]; auto;
    try (rewrite D; auto; fail).
  apply fr_ok_new. apply recordHeaderLen_pos.
Qed.

Lemma segmentation_independent after old core c1 c2 data :
  keeps_transport after -> segmentation c1 data -> segmentation c2 data ->
  eventually_same (fun k => reads after old k (fresh core c1)) (fun k => reads after old k (fresh core c2)).
Proof.
  intros KT S1 S2.
  destruct (reads_fresh after old core c1 data KT S1 (List.length data)) as [K1 H1]; auto.
  destruct (reads_fresh after old core c2 data KT S2 (List.length data)) as [K2 H2]; auto.
  exists (K1 + K2)%nat. intros k Hk. rewrite H1, H2; auto; lia.
Qed.

(** The results are those of the records the byte stream consists of. *)
Fixpoint frames_of (datagram : bool) (n : nat) (data : bytes) : list (bytes * bytes) :=
  match n with
  | O => []
  | S n => match first_frame (recordFraming datagram) data with
           | Some (Ok (h, b), rest) => (h, b) :: frames_of datagram n rest
           | _ => []
           end
  end.

(** ** Protection and its inverse *)

Lemma set_nth_same {A} i (x d : A) l : (i < List.length l)%nat -> nth i (set_nth i x l) d = x.
Proof. revert i. induction l as [|y l IH]; intros [|i] H; simpl in *; try lia; auto. apply IH. lia. Qed.
Lemma set_nth_other {A} i j (x d : A) l : i <> j -> nth j (set_nth i x l) d = nth j l d.
Proof. revert i j. induction l as [|y l IH]; intros [|i] [|j] H; simpl; auto; try congruence. Qed.
Lemma set_nth_length {A} i (x : A) l : List.length (set_nth i x l) = List.length l.
Proof. revert i. induction l as [|y l IH]; intros [|i]; simpl; auto. Qed.
Lemma cur_set r c : cur_ok r -> cur (set_cs r (r_cipher r) c) = c.
Proof. intros H. unfold cur, get_cs; simpl. now apply set_nth_same. Qed.
Lemma cur_ok_set r i c : cur_ok r -> cur_ok (set_cs r i c).
Proof. unfold cur_ok, set_cs; simpl. now rewrite set_nth_length. Qed.

Lemma rev_repeat {A} (x : A) n : rev (repeat x n) = repeat x n.
Proof. induction n; simpl; auto. rewrite IHn. clear. induction n; simpl; auto. now rewrite IHn. Qed.
Lemma strip_zeros n l : strip_padding_rev (repeat x00 n ++ l) = strip_padding_rev l.
Proof. induction n; simpl; auto. Qed.
Lemma strip_padding_ok frag ty pad : ty <> x00 -> strip_padding (frag ++ [ty] ++ repeat x00 pad) = Some (ty, frag).
Proof.
  intros H. unfold strip_padding. rewrite !rev_app_distr, rev_repeat, <- app_assoc, strip_zeros. simpl.
  destruct (Byte.eqb ty x00) eqn:E; [apply byte_eqb_eq in E; congruence|]. now rewrite rev_involutive.
Qed.

Lemma lor_disjoint s e : s < 2 ^ 48 -> N.lor s (N.shiftl e 48) = s + e * 2 ^ 48.
Proof.
  intros H. rewrite <- N.shiftl_mul_pow2. symmetry.
  rewrite <- N.lxor_lor, <- N.add_nocarry_lxor; auto; apply N.bits_inj; intros i; rewrite N.land_spec, N.bits_0;
    (destruct (N.ltb_spec i 48) as [Hi|Hi]; [rewrite N.shiftl_spec_low by auto; apply andb_false_r|]);
    rewrite <- (N.mod_small s (2 ^ 48)) by auto; rewrite N.mod_pow2_bits_high by auto; reflexivity.
Qed.
Lemma combineSeq_spec c : c_seq c < 2 ^ 48 -> c_epoch c < 2 ^ 16 ->
  N.shiftr (combineSeq c true) 48 = c_epoch c /\ combineSeq c true < 2 ^ 64.
Proof.
  intros H1 H2. unfold combineSeq. rewrite lor_disjoint by auto. rewrite N.shiftr_div_pow2.
  change (2 ^ 48) with 281474976710656 in *. change (2 ^ 16) with 65536 in *. change (2 ^ 64) with 18446744073709551616.
  split; [|lia]. rewrite N.div_add by lia. rewrite N.div_small by auto. lia.
Qed.

Definition valid_type (t : byte) : Prop := In t [rtAlert; rtHandshake; rtApplicationData; rtAck].
Lemma valid_type_test t : valid_type t ->
  negb (Byte.eqb t rtAlert || Byte.eqb t rtHandshake || Byte.eqb t rtApplicationData || Byte.eqb t rtAck) = false.
Proof. intros [<-|[<-|[<-|[<-|[]]]]]; reflexivity. Qed.

Lemma recordHeader_spec dg v t seq n h : recordHeader dg v t seq n = Ok h -> (N.of_nat n <= 65535) ->
  List.length h = recordHeaderLen dg /\ hd x00 h = t /\ h <> [] /\
  frameLen (recordFraming dg) h = Ok n /\
  unbe (skipn (List.length h - 2) h) = N.of_nat n /\
  (dg = true -> seq < 2 ^ 64 -> unbe (firstn 8 (skipn 3 h)) = seq).
Proof.
  intros H Hn. unfold recordHeader in H.
  assert (Eb : unbe (be 2 (N.of_nat n)) = N.of_nat n) by (apply unbe_be_small; change (256 ^ N.of_nat 2) with 65536; lia).
  destruct dg.
  - inv_bind H as w Hw. inv_ok H.
    pose proof (be_length 2 w) as L1. destruct (be 2 w) as [|v1 [|v2 [|]]]; try discriminate. clear L1.
    pose proof (be_length 8 seq) as L2. 
    assert (L : List.length ([t] ++ [v1; v2] ++ be 8 seq ++ be 2 (N.of_nat n)) = 13%nat)
      by (rewrite !app_length, !be_length; reflexivity).
    split; [exact L|]. split; [reflexivity|]. split; [discriminate|].
    assert (S11 : skipn 11 ([t] ++ [v1; v2] ++ be 8 seq ++ be 2 (N.of_nat n)) = be 2 (N.of_nat n)).
    { rewrite !app_assoc. apply skipn_app_n. rewrite !app_length, be_length. reflexivity. }
    split; [cbn [recordFraming frameLen recordHeaderLen]; change (13 - 2)%nat with 11%nat; rewrite S11, Eb; f_equal; lia|].
    split; [rewrite L; change (13 - 2)%nat with 11%nat; now rewrite S11|].
    intros _ Hs. change (skipn 3 _) with (be 8 seq ++ be 2 (N.of_nat n)). rewrite firstn_app_n by (now rewrite be_length). apply unbe_be_small. exact Hs.
  - inv_ok H.
    pose proof (be_length 2 v) as L1. destruct (be 2 v) as [|v1 [|v2 [|]]]; try discriminate. clear L1.
    assert (L : List.length ([t] ++ [v1; v2] ++ be 2 (N.of_nat n)) = 5%nat) by (rewrite !app_length, !be_length; reflexivity).
    split; [exact L|]. split; [reflexivity|]. split; [discriminate|].
    assert (S3 : skipn 3 ([t] ++ [v1; v2] ++ be 2 (N.of_nat n)) = be 2 (N.of_nat n)) by reflexivity.
    split; [cbn [recordFraming frameLen recordHeaderLen]; change (5 - 2)%nat with 3%nat; rewrite S3, Eb; f_equal; lia|].
    split; [rewrite L; change (5 - 2)%nat with 3%nat; now rewrite S3|].
    discriminate.
Qed.

(** What a successful [protect] produced. *)
Lemma protect_inv r i pt pad rec c' : protect r i pt pad = Ok (rec, c') ->
  exists hdr ct, rec = hdr ++ ct /\ len ct <= maxFragmentLen /\
    incrementSequenceNumber (get_cs r i) = Ok c' /\
    match c_aead (get_cs r i) with
    | Some k => r_dir r = DirWrite /\ exists nonce,
        computeNonce (c_iv (get_cs r i)) (combineSeq (get_cs r i) (r_datagram r)) = Ok nonce /\
        recordHeader (r_datagram r) (r_version r) rtApplicationData (combineSeq (get_cs r i) (r_datagram r))
          (List.length (p_fragment pt) + 1 + pad + overhead k) = Ok hdr /\
        ct = seal k nonce hdr (p_fragment pt ++ [p_type pt] ++ repeat x00 pad)
    | None => pad = 0%nat /\ ct = p_fragment pt /\
        recordHeader (r_datagram r) (r_version r) (p_type pt) (combineSeq (get_cs r i) (r_datagram r))
          (List.length (p_fragment pt)) = Ok hdr
    end.
Proof.
  unfold protect. intros H. inv_bind H as [hdr ct] H1.
  destruct (N.ltb_spec maxFragmentLen (len ct)) as [|Hl]; [discriminate|]. inv_bind H as c1 H2. inv_ok H.
  exists hdr, ct. repeat split; auto.
  destruct (c_aead (get_cs r i)) as [k|].
  - inv_bind H1 as h1 Hh. inv_bind H1 as ct1 Hc. inv_ok H1. unfold encrypt in Hc. destruct (r_dir r); [|discriminate].
    split; auto. inv_bind Hc as nonce Hn. inv_ok Hc. eauto.
  - inv_bind H1 as h1 Hh. destruct (Nat.ltb_spec 0 pad); [discriminate|]. inv_ok H1. split; [lia|auto].
Qed.

Lemma incr_inv c c' : incrementSequenceNumber c = Ok c' ->
  c_seq c < 2 ^ 48 - 1 /\ c' = mkCs (c_epoch c) (c_seq c + 1) (c_iv c) (c_aead c).
Proof.
  unfold incrementSequenceNumber. destruct (N.leb_spec (2 ^ 48 - 1) (c_seq c)); [discriminate|]. intros H1. inv_ok H1. auto.
Qed.
Lemma incr_ok c : c_seq c < 2 ^ 48 - 1 -> incrementSequenceNumber c = Ok (mkCs (c_epoch c) (c_seq c + 1) (c_iv c) (c_aead c)).
Proof. intros H. unfold incrementSequenceNumber. destruct (N.leb_spec (2 ^ 48 - 1) (c_seq c)); auto. lia. Qed.

(** The receiver can locate the key: same transport, and for DTLS its current epoch is that of the record. *)
Definition matches (w r : rcore) (i : nat) : Prop :=
  r_datagram w = r_datagram r /\
  c_aead (get_cs w i) = c_aead (cur r) /\ c_iv (get_cs w i) = c_iv (cur r) /\
  if r_datagram r then c_epoch (get_cs w i) = c_epoch (cur r) /\ c_epoch (cur r) < 2 ^ 16 /\
                       lookup (c_epoch (cur r)) (r_readCiphers r) <> None
  else c_seq (get_cs w i) = c_seq (cur r).

(** The number reported with a record. *)
Definition wire_seq (w : rcore) (i : nat) : N :=
  match c_aead (get_cs w i) with
  | Some _ => combineSeq (get_cs w i) (r_datagram w)
  | None => 0
  end.

Lemma protect_handle w r i m rec c' old :
  protect w i (mkPt (m_type m) 0 0 (m_content m)) (m_pad m) = Ok (rec, c') ->
  matches w r i -> r_dir r = DirRead ->
  match c_aead (get_cs w i) with Some k => aead_ok k /\ m_type m <> x00 | None => valid_type (m_type m) end ->
  c_seq (cur r) < 2 ^ 48 - 1 ->
  exists hdr ct, rec = hdr ++ ct /\
    (forall rest, first_frame (recordFraming (r_datagram r)) (rec ++ rest) = Some (Ok (hdr, ct), rest)) /\
    handleFrame r old hdr ct =
      (set_cs r (r_cipher r) (mkCs (c_epoch (cur r)) (c_seq (cur r) + 1) (c_iv (cur r)) (c_aead (cur r))),
       Ok (mkPt (m_type m) (c_epoch (cur r)) (wire_seq w i) (m_content m))).
Proof.
  intros H (Md & Mk & Mi & Ms) Dr Hk Hs. apply protect_inv in H. destruct H as (hdr & ct & -> & Hl & Hi & H).
  apply incr_inv in Hi. destruct Hi as [Hseq _]. exists hdr, ct. split; [reflexivity|].
  cbn [p_fragment p_type] in H.
  set (sq := combineSeq (get_cs w i) (r_datagram w)) in *.
  (* header facts *)
  assert (HH : exists t n, recordHeader (r_datagram w) (r_version w) t sq n = Ok hdr /\ valid_type t /\ List.length ct = n /\
               t = match c_aead (get_cs w i) with Some _ => rtApplicationData | None => m_type m end).
  { destruct (c_aead (get_cs w i)) as [k|].
    - destruct H as (_ & nonce & _ & Hh & ->). destruct Hk as [[_ Hlen] _].
      do 2 eexists. split; [exact Hh|]. split; [unfold valid_type; simpl; auto|]. split; [|reflexivity].
      rewrite Hlen, !app_length, repeat_length. simpl. lia.
    - destruct H as (_ & -> & Hh). do 2 eexists. split; [exact Hh|]. auto. }
  destruct HH as (t & n & Hh & Ht & Hn & Et).
  assert (Hn' : N.of_nat n <= 65535) by (subst n; unfold len, maxFragmentLen in Hl; lia).
  destruct (recordHeader_spec _ _ _ _ _ _ Hh Hn') as (L1 & L2 & L3 & L4 & L5 & L6).
  assert (Hnl : List.length ct = N.to_nat (N.of_nat n)) by lia.
  split.
  { intros rest. rewrite <- Md. unfold first_frame. cbn [headerLen recordFraming]. rewrite <- app_assoc, app_length, L1.
    destruct (Nat.ltb_spec (recordHeaderLen (r_datagram w) + List.length (ct ++ rest)) (recordHeaderLen (r_datagram w))); [lia|].
    rewrite firstn_app_n, skipn_app_n by auto.
    change (frameLen _ hdr) with (frameLen (recordFraming (r_datagram w)) hdr). rewrite L4.
    rewrite app_length. destruct (Nat.ltb_spec (List.length ct + List.length rest) n); [lia|].
    rewrite firstn_app_n, skipn_app_n by auto. reflexivity. }
  unfold handleFrame. destruct hdr as [|t0 hdr']; [congruence|]. simpl hd in L2. subst t0. rewrite (valid_type_test _ Ht).
  set (hdr := t :: hdr') in *. rewrite L5.
  destruct (N.ltb_spec (maxFragmentLen + 256) (N.of_nat n)); [unfold len in *; lia|].
  rewrite <- Hnl, firstn_all, Nat.sub_diag. cbn [repeat]. rewrite app_nil_r.
  fold (cur r).
  assert (Sel : (if r_datagram r then
          match lookup (N.shiftr (unbe (firstn 8 (skipn 3 hdr))) 48) (r_readCiphers r) with
          | None => Err WouldBlock
          | Some c => if N.shiftr (unbe (firstn 8 (skipn 3 hdr))) 48 =? c_epoch (cur r) then Ok (unbe (firstn 8 (skipn 3 hdr)), r_cipher r)
                      else if old then Ok (unbe (firstn 8 (skipn 3 hdr)), c) else Err WouldBlock
          end
        else Ok (c_seq (cur r), r_cipher r)) = Ok (sq, r_cipher r)).
  { destruct (r_datagram r) eqn:Ed.
    - destruct Ms as (Me & Me2 & Mlk).
      assert (Hsq : combineSeq (get_cs w i) true = sq) by (unfold sq; now rewrite Md).
      destruct (combineSeq_spec (get_cs w i)) as [C1 C2]; [lia|rewrite Me; auto|].
      rewrite Hsq in *. rewrite (L6 Md) by auto. rewrite C1, Me.
      destruct (lookup (c_epoch (cur r)) (r_readCiphers r)); [|congruence]. now rewrite N.eqb_refl.
    - unfold sq, combineSeq. rewrite Md, Ms. reflexivity. }
  rewrite Sel. cbn [bind]. fold (cur r). unfold wire_seq. fold sq. rewrite Mk in *.
  destruct (c_aead (cur r)) as [k|] eqn:Ek.
  - destruct H as (_ & nonce & Hnc & _ & ->). destruct Hk as [[Ho Hlen] Hty]. unfold decrypt. rewrite Dr. fold (cur r). unfold cs_overhead. rewrite Ek.
    rewrite Hlen.
    match goal with |- context [(?a <? ?b)%nat] => destruct (Nat.ltb_spec a b); [lia|] end.
    rewrite <- Mi, Hnc. cbn [bind]. rewrite Ho. rewrite strip_padding_ok by auto. cbn [bind p_type p_seq p_fragment].
    destruct (N.ltb_spec maxFragmentLen (len (m_content m))) as [Hbig|_].
    { exfalso. unfold len in *. rewrite Hlen, app_length in Hl. lia. }
    rewrite incr_ok by auto. cbn [bind]. rewrite Ek, Mi. reflexivity.
  - destruct H as (_ & -> & _). cbn [bind p_type p_seq p_fragment]. subst t.
    destruct (N.ltb_spec maxFragmentLen (len (m_content m))) as [Hbig|_]; [lia|].
    rewrite incr_ok by auto. cbn [bind]. rewrite Ek. reflexivity.
Qed.

(** ** A whole sequence over a stream *)

Lemma delivered_app_core w r ms l l' n :
  writes l ms = (l', Ok tt) -> w = l_core l ->
  matches w r (r_cipher w) -> r_datagram r = false -> r_dir r = DirRead -> cur_ok w -> cur_ok r ->
  match c_aead (cur w) with Some k => aead_ok k | None => False end ->
  Forall (fun m => m_type m <> x00) ms ->
  exists recs, l_out l' = l_out l ++ recs /\
    ((List.length (concat recs) <= n)%nat ->
     spec_reads no_rekey false n r (concat recs) = delivered_from ms (c_epoch (cur r)) (c_seq (cur r))).
Proof.
  intros H -> M Dg Dr Cw Cr Ka Hm. revert l r n H M Dg Dr Cw Cr Ka.
  induction Hm as [|m ms Hty Hm IH]; intros l r n H M Dg Dr Cw Cr Ka; simpl in H.
  - injection H as <-. exists []. rewrite app_nil_r. split; auto. intros _. simpl.
    destruct n; cbn [spec_reads]; [reflexivity|]. unfold first_frame.
    destruct (Nat.ltb_spec (List.length (@nil byte)) (headerLen (recordFraming (r_datagram r)))) as [|Hx]; [reflexivity|].
    pose proof (recordHeaderLen_pos (r_datagram r)). simpl in *. lia.
  - unfold writeRecordWithPadding in H.
    destruct (protect (l_core l) (r_cipher (l_core l)) (mkPt (m_type m) 0 0 (m_content m)) (m_pad m)) as [[rec c']|e| |] eqn:Ep; try discriminate.
    cbv iota in H.
    pose proof (protect_inv _ _ _ _ _ _ Ep) as (_ & _ & _ & _ & Hi & _). apply incr_inv in Hi. destruct Hi as [Hseq Hc'].
    pose proof M as (Md & Mk & Mi & Ms). rewrite Dg in Ms.
    fold (cur (l_core l)) in Hseq, Hc', Mk, Mi, Ms.
    destruct (protect_handle (l_core l) r (r_cipher (l_core l)) m rec c' false Ep M Dr) as (hdr & ct & -> & Hff & Hhf).
    { fold (cur (l_core l)). destruct (c_aead (cur (l_core l))); [auto|contradiction]. }
    { rewrite <- Ms. exact Hseq. }
    set (r' := set_cs r (r_cipher r) (mkCs (c_epoch (cur r)) (c_seq (cur r) + 1) (c_iv (cur r)) (c_aead (cur r)))) in *.
    set (l1 := mkRl (set_cs (l_core l) (r_cipher (l_core l)) c') (l_frame l) (l_cached l) (l_in l) (l_out l ++ [hdr ++ ct])) in *.
    assert (Cu : cur r' = mkCs (c_epoch (cur r)) (c_seq (cur r) + 1) (c_iv (cur r)) (c_aead (cur r))) by (apply cur_set; auto).
    assert (Cl : cur (l_core l1) = c') by (apply cur_set; auto).
    destruct (IH l1 r' (Nat.pred n)) as (recs & E1 & E2); auto.
    { unfold matches. change (r_datagram (l_core l1)) with (r_datagram (l_core l)). change (r_datagram r') with (r_datagram r).
      rewrite Dg. split; [congruence|]. fold (cur (l_core l1)). rewrite Cl, Cu, Hc'. cbn [c_aead c_iv c_seq c_epoch].
      repeat split; congruence. }
    { apply cur_ok_set; auto. }
    { apply cur_ok_set; auto. }
    { rewrite Cl, Hc'. exact Ka. }
    exists ((hdr ++ ct) :: recs). split.
    { rewrite E1. cbn [l_out l1]. rewrite <- app_assoc. reflexivity. }
    intros Hn. cbn [concat] in *. rewrite app_length in Hn.
    assert (Hlr : (0 < List.length (hdr ++ ct))%nat).
    { specialize (Hff []). apply first_frame_shorter in Hff; [|apply recordHeaderLen_pos]. rewrite app_nil_r in Hff. simpl in Hff. lia. }
    destruct n as [|n]; [lia|]. cbn [spec_reads]. rewrite Hff, Hhf.
    cbn [delivered_from]. f_equal.
    + unfold delivered, wire_seq, combineSeq. fold (cur (l_core l)). rewrite Md, Dg.
      destruct (c_aead (cur (l_core l))); [|contradiction]. now rewrite Ms.
    + cbn [Nat.pred] in E2. change (no_rekey r' _) with r'. rewrite E2 by lia. rewrite Cu. reflexivity.
Qed.

Lemma stream_round_trip w r ms l' recs_in conn data :
  writes (fresh w recs_in) ms = (l', Ok tt) ->
  r_datagram w = false -> r_datagram r = false -> r_dir r = DirRead -> cur_ok w -> cur_ok r ->
  in_step (cur w) (cur r) -> (exists k, c_aead (cur w) = Some k /\ aead_ok k) ->
  Forall (fun m => m_type m <> x00) ms ->
  data = concat (l_out l') -> segmentation conn data ->
  eventually (fun k => reads no_rekey false k (fresh r conn)) (delivered_from ms (c_epoch (cur r)) (c_seq (cur r))).
Proof.
  intros H Dw Dg Dr Cw Cr (S1 & S2 & S3) (k & Ek & Ka) Hm -> Sg.
  destruct (delivered_app_core w r ms (fresh w recs_in) l' (List.length (concat (l_out l'))) H eq_refl) as (recs & E1 & E2); auto.
  { unfold matches. rewrite Dw, Dg. auto. }
  { rewrite Ek. exact Ka. }
  cbn [fresh l_out app] in E1. rewrite E1 in *. rewrite <- E2 by auto.
  apply reads_fresh; auto. intros c x. reflexivity.
Qed.
