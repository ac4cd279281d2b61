(** Final forms of the [syntax] lemmas, in terms of [marshal] and [unmarshal]. *)
From Verif Require Import Base Syntax SyntaxSpec SyntaxVarint SyntaxProofs SyntaxProofs2 SyntaxProofs3.
From Coq Require Import Permutation.

Lemma marshal_inv t v b : marshal t v = Ok b -> ty_valid t = true /\ encode t null_opts v = Ok b.
Proof. unfold marshal. destruct (ty_valid t); [auto|discriminate]. Qed.
Lemma unmarshal_inv t f d v n : unmarshal f t d = Ok (v, n) ->
  ty_valid t = true /\ exists rest, decode f t null_opts d = Ok (v, n, rest).
Proof.
  unfold unmarshal. destruct (ty_valid t); [|discriminate]. intros H. inv_bind H as [[v1 r1] d1] H1. inv_ok H. eauto.
Qed.

Lemma main_round_trip t v b tail fuel :
  delimited false t null_opts -> elems_nonempty t null_opts -> lawful t -> varints_fit t null_opts v ->
  len b < 2 ^ 63 -> marshal t v = Ok b -> (List.length (b ++ tail) <= fuel)%nat ->
  exists v', unmarshal fuel t (b ++ tail) = Ok (v', List.length b) /\ veq (visible t v) v'.
Proof.
  intros D E L V Hb H Hf. apply marshal_inv in H. destruct H as [Hv H]. rewrite <- max63_eq in Hb.
  destruct (proj1 round_trip t false null_opts v b tail fuel) as (v' & H1 & H2); auto; [discriminate|].
  exists v'. split; auto. unfold unmarshal. rewrite Hv, H1. reflexivity.
Qed.
Lemma main_round_trip_last t v b fuel :
  delimited true t null_opts -> elems_nonempty t null_opts -> lawful t -> varints_fit t null_opts v ->
  len b < 2 ^ 63 -> marshal t v = Ok b -> (List.length b <= fuel)%nat ->
  exists v', unmarshal fuel t b = Ok (v', List.length b) /\ veq (visible t v) v'.
Proof.
  intros D E L V Hb H Hf. apply marshal_inv in H. destruct H as [Hv H]. rewrite <- max63_eq in Hb.
  destruct (proj1 round_trip t true null_opts v b [] fuel) as (v' & H1 & H2); auto; rewrite ?app_nil_r in *; auto.
  exists v'. split; auto. unfold unmarshal. rewrite Hv, H1. reflexivity.
Qed.

Lemma main_narrow_varint :
  exists (t : ty) (v : val) (b : bytes),
    delimited false t null_opts /\ elems_nonempty t null_opts /\ lawful t /\
    marshal t v = Ok b /\ forall fuel, is_err (unmarshal fuel t b).
Proof.
  exists (TStruct (FCons (mkOpts false false 0 0 0 true false false) (TUint U16) FNil)), (VList [VUint 16384]), (map b8 [128; 0; 64; 0]).
  repeat split. intros fuel. eexists. reflexivity.
Qed.

Lemma main_prefix t fuel data v n :
  prefix_reader t -> delimited false t null_opts -> unmarshal fuel t data = Ok (v, n) ->
  (n <= List.length data)%nat /\ forall suffix, unmarshal fuel t (firstn n data ++ suffix) = Ok (v, n).
Proof.
  intros P D H. apply unmarshal_inv in H. destruct H as [Hv [rest H]].
  destruct (proj1 decode_read _ _ _ _ _ _ _ H) as (pre & -> & <-).
  split; [rewrite app_length; lia|]. intros suffix. rewrite firstn_app_len. unfold unmarshal. rewrite Hv.
  rewrite (proj1 decode_determined _ _ _ P D _ _ _ suffix H). reflexivity.
Qed.

Lemma main_limits t v : ty_valid t = true ->
  ((exists b, marshal t v = Ok b) <-> encodable t null_opts v) /\
  (~ encodable t null_opts v -> exists e, marshal t v = Err e) /\
  (forall b, marshal t v = Ok b -> len b = wire_size t null_opts v).
Proof.
  intros Hv. unfold marshal. rewrite Hv. pose proof (proj1 encode_iff_encodable t null_opts v) as H. split; [exact H|split].
  - intros Hn. pose proof (proj1 encode_only_err t null_opts v) as [O1 O2].
    destruct (encode t null_opts v) as [b|e| |]; eauto; try contradiction.
    exfalso. apply Hn, H. eauto.
  - intros b Hb. eapply (proj1 encode_wire_size); eauto.
Qed.

Lemma main_canonical t fuel data v n :
  fixed_form t null_opts -> unmarshal fuel t data = Ok (v, n) -> marshal t v = Ok (firstn n data).
Proof.
  intros F H. apply unmarshal_inv in H. destruct H as [Hv [rest H]]. unfold marshal. rewrite Hv.
  eapply (proj1 decode_canonical); eauto.
Qed.

Lemma main_unmarshal_limits t fuel data v n :
  fixed_form t null_opts -> unmarshal fuel t data = Ok (v, n) ->
  encodable t null_opts v /\ wire_size t null_opts v = N.of_nat n.
Proof.
  intros F H. pose proof (main_canonical _ _ _ _ _ F H) as M.
  apply unmarshal_inv in H. destruct H as [Hv [rest H]].
  destruct (main_limits t v Hv) as (H1 & _ & H2). split; [apply H1; eauto|]. rewrite <- (H2 _ M).
  apply decode_read in H. destruct H as (pre & -> & <-). now rewrite firstn_app_len.
Qed.

Lemma main_varint u tail :
  (u < 2 ^ 62 -> exists b, writeVarint u = Ok b /\ len b = varint_size u /\
                           readVarint (b ++ tail) = Ok (List.length b, u, tail)) /\
  (2 ^ 62 <= u -> exists e, writeVarint u = Err e).
Proof.
  split; [|apply writeVarint_Err]. intros H. destruct (writeVarint_Ok u H) as [b Hb]. exists b.
  repeat split; auto using writeVarint_len, readVarint_write.
Qed.

Lemma main_varint_shortest u n : u < 2 ^ 62 -> In n [1; 2; 4; 8] -> u < 2 ^ (8 * n - 2) ->
  varint_size u <= n /\ In (varint_size u) [1; 2; 4; 8] /\ u < 2 ^ (8 * varint_size u - 2).
Proof.
  intros H Hn Hu. unfold varint_size.
  assert (E : (n = 1 /\ u < 64) \/ (n = 2 /\ u < 16384) \/ (n = 4 /\ u < 1073741824) \/ n = 8).
  { simpl in Hn. destruct Hn as [<-|[<-|[<-|[<-|[]]]]]; auto. }
  destruct (N.ltb_spec u 64); [simpl; split; [|split]; [lia|auto|assumption]|].
  destruct (N.ltb_spec u 16384); [simpl; split; [|split]; [lia|auto|assumption]|].
  destruct (N.ltb_spec u 1073741824); [simpl; split; [|split]; [lia|auto|assumption]|].
  split; [lia|]. split; [simpl; auto|exact H].
Qed.

Lemma main_varint_least u b : writeVarint u = Ok b ->
  In (len b) [1; 2; 4; 8] /\ u < 2 ^ (8 * len b - 2) /\
  forall n, In n [1; 2; 4; 8] -> u < 2 ^ (8 * n - 2) -> len b <= n.
Proof.
  intros H. destruct (main_varint u []) as [H1 H2].
  destruct (N.lt_ge_cases u (2 ^ 62)) as [L|L].
  - destruct (H1 L) as (b' & E & El & _). rewrite H in E. apply Ok_inj in E. subst b'. rewrite El.
    assert (In 8 [1; 2; 4; 8]) as I8 by (simpl; auto).
    destruct (main_varint_shortest u 8 L I8 L) as (_ & M1 & M2).
    split; [exact M1|]. split; [exact M2|]. intros n Hn Hu. now apply main_varint_shortest.
  - destruct (H2 L) as [e E]. rewrite H in E. discriminate.
Qed.

Lemma main_map_order t v v' b : order_blind t -> veq v v' -> marshal t v = Ok b -> marshal t v' = Ok b.
Proof.
  intros O V H. apply marshal_inv in H. destruct H as [Hv H]. unfold marshal. rewrite Hv. eapply (proj1 encode_veq); eauto.
Qed.

Lemma main_no_panic t fuel data : no_optional t null_opts -> unmarshal fuel t data <> Panic.
Proof.
  intros H. change (no_panic (unmarshal fuel t data)). unfold unmarshal. destruct (ty_valid t); [|np].
  apply no_panic_bind; [now apply decode_no_panic | np].
Qed.

Lemma main_optional_panics : exists (t : ty) (data : bytes), ty_valid t = true /\ forall fuel, unmarshal fuel t data = Panic.
Proof.
  exists (TStruct (FCons (mkOpts false false 0 0 0 false true false) (TPtr (TUint U16)) FNil)), []. split; reflexivity.
Qed.

Lemma main_terminates t fuel data :
  elems_nonempty t null_opts -> (List.length data <= fuel)%nat -> unmarshal fuel t data <> Fuel.
Proof.
  intros H Hf. change (no_fuel (unmarshal fuel t data)). unfold unmarshal. destruct (ty_valid t); [|nf].
  apply no_fuel_bind; [now apply decode_no_fuel | nf].
Qed.

Lemma main_diverges : exists (t : ty) (data : bytes), ty_valid t = true /\ forall fuel, unmarshal fuel t data = Fuel.
Proof.
  exists (TStruct (FCons (mkOpts false false 1 0 0 false false false) (TSlice (TStruct FNil)) FNil)), (map b8 [1; 0]).
  split; [reflexivity|]. intros fuel.
  assert (K : dec_many (decode fuel (TStruct FNil) (mkOpts false false 1 0 0 false false false)) fuel (map b8 [0]) = Fuel).
  { generalize fuel at 1. intros k. induction fuel as [|f IH]; simpl; auto. simpl in IH. rewrite IH. reflexivity. }
  cbv [unmarshal]. change (ty_valid _) with true. cbv iota. cbn [decode decode_fields omit].
  change (decodeLength (map b8 [1; 0]) _) with (Ok (1%nat, 1%Z, map b8 [0])). cbn [bind].
  change (takeElems 1 (map b8 [0])) with (Ok (map b8 [0], @nil byte)). cbn [bind].
  match goal with |- context [dec_many ?f fuel ?d] => replace (dec_many f fuel d) with (@Fuel (list val * nat)) by (symmetry; exact K) end.
  reflexivity.
Qed.

Lemma main_varint_not_canonical :
  exists (t : ty) (data b : bytes) (v : val) (n : nat),
    unmarshal 10 t data = Ok (v, n) /\ marshal t v = Ok b /\ b <> firstn n data.
Proof.
  exists (TStruct (FCons (mkOpts false false 0 0 0 true false false) (TUint U64) FNil)),
    (map b8 [64; 5]), (map b8 [5]), (VList [VUint 5]), 2%nat.
  split; [reflexivity|]. split; [reflexivity|discriminate].
Qed.
Lemma main_map_not_canonical :
  exists (t : ty) (data b : bytes) (v : val) (n : nat),
    no_optional t null_opts /\ unmarshal 10 t data = Ok (v, n) /\ marshal t v = Ok b /\ b <> firstn n data.
Proof.
  exists (TStruct (FCons (mkOpts false false 1 0 0 false false false) (TMap (TUint U8) (TUint U8)) FNil)),
    (map b8 [4; 2; 7; 1; 9]), (map b8 [4; 1; 9; 2; 7]), (VList [VMap [(VUint 2, VUint 7); (VUint 1, VUint 9)]]), 5%nat.
  split; [simpl; intuition lia|]. split; [reflexivity|]. split; [reflexivity|discriminate].
Qed.
