(** Properties C01-C08: package [syntax]. Vocabulary in SyntaxSpec.v. *)
From Verif Require Import Base Syntax SyntaxSpec SyntaxVarint SyntaxProofs SyntaxProofs2 SyntaxProofs3 SyntaxMain.
From Coq Require Import Permutation.

(** Types used in the examples. [hello]: two fixed fields, a vector with limits, a nested vector of structs. *)
Definition vec (h mn mx : Z) : fopts := mkOpts false false h mn mx false false false.
Definition ext_ty : ty := TStruct (FCons null_opts (TUint U16) (FCons (vec 2 0 0) (TSlice (TUint U8)) FNil)).
Definition hello_ty : ty :=
  TStruct (FCons null_opts (TUint U16) (FCons null_opts (TArray 2 (TUint U8))
          (FCons (vec 2 2 65534) (TSlice (TUint U16)) (FCons (vec 2 0 0) (TSlice ext_ty) FNil)))).
Definition hello_val : val :=
  VList [VUint 771; VList [VUint 1; VUint 2]; VList [VUint 4865];
         VList [VList [VUint 43; VList [VUint 3; VUint 4]]; VList [VUint 0; VList []]]].
Definition map_ty : ty := TStruct (FCons (vec 2 0 0) (TMap (TUint U8) (TUint U16)) FNil).
Definition opt_ty : ty := TStruct (FCons (mkOpts false false 0 0 0 false true false) (TPtr (TUint U16)) FNil).
Definition vint_ty : ty := TStruct (FCons (mkOpts false false 0 0 0 true false false) (TUint U64) FNil).

(** C01. What Marshal writes, Unmarshal reads back, followed by anything, consuming exactly those bytes;
    fields tagged [omit] come back as zero, and maps are equal as unordered collections.
    [varints_fit] excludes exactly the values of [C01_narrow_varint_refuted]; [elems_nonempty] excludes vectors
    of elements that occupy no bytes (see C07); the size bound is the range of a Go [int]. *)
Theorem C01_round_trip :
  forall (t : ty) (v : val) (b tail : bytes) (fuel : nat),
    delimited false t null_opts -> elems_nonempty t null_opts -> lawful t -> varints_fit t null_opts v ->
    len b < 2 ^ 63 ->
    marshal t v = Ok b ->
    (List.length (b ++ tail) <= fuel)%nat ->
    exists v', unmarshal fuel t (b ++ tail) = Ok (v', List.length b) /\ veq (visible t v) v'.
Proof. exact main_round_trip. Qed.
Print Assumptions C01_round_trip.

Example C01_case :
  delimited false hello_ty null_opts /\ elems_nonempty hello_ty null_opts /\ lawful hello_ty /\
  varints_fit hello_ty null_opts hello_val /\
  marshal hello_ty hello_val = Ok (map b8 [3;3; 1;2; 0;2;19;1; 0;10; 0;43;0;2;3;4; 0;0;0;0]) /\
  unmarshal 30 hello_ty (map b8 [3;3; 1;2; 0;2;19;1; 0;10; 0;43;0;2;3;4; 0;0;0;0; 255]) = Ok (hello_val, 20%nat).
Proof. repeat split; try (simpl; intuition (discriminate || auto); fail); repeat constructor; try (intros; discriminate); try tauto. Qed.

(** The same for a type that ends in a vector without a length header, read from exactly the bytes written. *)
Theorem C01_round_trip_unheadered :
  forall (t : ty) (v : val) (b : bytes) (fuel : nat),
    delimited true t null_opts -> elems_nonempty t null_opts -> lawful t -> varints_fit t null_opts v ->
    len b < 2 ^ 63 ->
    marshal t v = Ok b ->
    (List.length b <= fuel)%nat ->
    exists v', unmarshal fuel t b = Ok (v', List.length b) /\ veq (visible t v) v'.
Proof. exact main_round_trip_last. Qed.
Print Assumptions C01_round_trip_unheadered.

Example C01_unheadered_case :
  let t := TStruct (FCons null_opts (TUint U8) (FCons (mkOpts true false 0 0 0 false false false) (TSlice (TUint U16)) FNil)) in
  delimited true t null_opts /\ elems_nonempty t null_opts /\
  marshal t (VList [VUint 7; VList [VUint 258]]) = Ok (map b8 [7;1;2]) /\
  unmarshal 9 t (map b8 [7;1;2]) = Ok (VList [VUint 7; VList [VUint 258]], 3%nat).
Proof. repeat split; auto. Qed.

(** Without [varints_fit] the property fails: a [uint16] field tagged [varint] holding 16384 is written in four
    bytes that Unmarshal refuses. *)
Theorem C01_narrow_varint_refuted :
  exists (t : ty) (v : val) (b : bytes),
    delimited false t null_opts /\ elems_nonempty t null_opts /\ lawful t /\
    marshal t v = Ok b /\ forall fuel, is_err (unmarshal fuel t b).
Proof. exact main_narrow_varint. Qed.
Print Assumptions C01_narrow_varint_refuted.

(** C02. A successful Unmarshal consumed a prefix, and the outcome depends on that prefix alone. *)
Theorem C02_consumes_prefix :
  forall (t : ty) (fuel : nat) (data : bytes) (v : val) (n : nat),
    prefix_reader t -> delimited false t null_opts ->
    unmarshal fuel t data = Ok (v, n) ->
    (n <= List.length data)%nat /\
    forall suffix, unmarshal fuel t (firstn n data ++ suffix) = Ok (v, n).
Proof. exact main_prefix. Qed.
Print Assumptions C02_consumes_prefix.

Example C02_case :
  prefix_reader hello_ty /\ delimited false hello_ty null_opts /\
  unmarshal 30 hello_ty (map b8 [3;3; 1;2; 0;2;19;1; 0;4; 0;0;0;0; 255;255])
  = Ok (VList [VUint 771; VList [VUint 1; VUint 2]; VList [VUint 4865]; VList [VList [VUint 0; VList []]]], 14%nat).
Proof. repeat split; auto. Qed.

(** C03. Marshal succeeds on exactly the values within all declared limits, otherwise it returns an error; the
    bytes have the size the limits speak about. *)
Theorem C03_marshal_limits :
  forall (t : ty) (v : val), ty_valid t = true ->
    ((exists b, marshal t v = Ok b) <-> encodable t null_opts v) /\
    (~ encodable t null_opts v -> exists e, marshal t v = Err e) /\
    (forall b, marshal t v = Ok b -> len b = wire_size t null_opts v).
Proof. exact main_limits. Qed.
Print Assumptions C03_marshal_limits.

Example C03_case :
  ty_valid hello_ty = true /\
  is_ok (marshal hello_ty hello_val) /\
  is_err (marshal hello_ty (VList [VUint 771; VList [VUint 1; VUint 2]; VList []; VList []])).
Proof. repeat split; eexists; reflexivity. Qed.

(** Unmarshal only ever produces values within the limits (types with a single encoding per value; with varints
    or maps inside a vector the declared size bounds the bytes received, not the bytes of the re-encoding). *)
Theorem C03_unmarshal_limits :
  forall (t : ty) (fuel : nat) (data : bytes) (v : val) (n : nat),
    fixed_form t null_opts -> unmarshal fuel t data = Ok (v, n) ->
    encodable t null_opts v /\ wire_size t null_opts v = N.of_nat n.
Proof. exact main_unmarshal_limits. Qed.
Print Assumptions C03_unmarshal_limits.

Example C03_unmarshal_case :
  fixed_form hello_ty null_opts /\
  is_ok (unmarshal 30 hello_ty (map b8 [3;3; 1;2; 0;2;19;1; 0;0])) /\
  is_err (unmarshal 30 hello_ty (map b8 [3;3; 1;2; 0;0; 0;0])).
Proof. split; [simpl; intuition (discriminate || auto)|]. split; eexists; reflexivity. Qed.

(** C04. *)
Theorem C04_varint :
  forall (u : N) (tail : bytes),
    (u < 2 ^ 62 -> exists b, writeVarint u = Ok b /\ len b = varint_size u /\
                             readVarint (b ++ tail) = Ok (List.length b, u, tail)) /\
    (2 ^ 62 <= u -> exists e, writeVarint u = Err e).
Proof. exact main_varint. Qed.
Print Assumptions C04_varint.

(** What is written is the shortest of the four forms that can hold the integer: a form of [n] bytes holds the
    integers below [2^(8n-2)]. *)
Theorem C04_varint_shortest :
  forall (u : N) (b : bytes), writeVarint u = Ok b ->
    In (len b) [1; 2; 4; 8] /\ u < 2 ^ (8 * len b - 2) /\
    forall n, In n [1; 2; 4; 8] -> u < 2 ^ (8 * n - 2) -> len b <= n.
Proof. exact main_varint_least. Qed.
Print Assumptions C04_varint_shortest.

Example C04_case :
  writeVarint 63 = Ok (map b8 [63]) /\ writeVarint 64 = Ok (map b8 [64; 64]) /\
  writeVarint 16384 = Ok (map b8 [128; 0; 64; 0]) /\
  readVarint (map b8 [128; 0; 64; 0; 9]) = Ok (4%nat, 16384, map b8 [9]).
Proof. repeat split. Qed.

(** C05. Two enumerations of the same value marshal to the same bytes. [order_blind] asks map keys to be built
    from integers (the key types whose encodings are distinct for distinct keys). *)
Theorem C05_map_order :
  forall (t : ty) (v v' : val) (b : bytes),
    order_blind t -> veq v v' -> marshal t v = Ok b -> marshal t v' = Ok b.
Proof. exact main_map_order. Qed.
Print Assumptions C05_map_order.

Example C05_case :
  order_blind map_ty /\
  veq (VList [VMap [(VUint 1, VUint 258); (VUint 0, VUint 3)]]) (VList [VMap [(VUint 0, VUint 3); (VUint 1, VUint 258)]]) /\
  marshal map_ty (VList [VMap [(VUint 1, VUint 258); (VUint 0, VUint 3)]]) = Ok (map b8 [0;6; 0;0;3; 1;1;2]).
Proof.
  repeat split; auto. constructor. repeat constructor. apply veq_map with (l' := [(VUint 0, VUint 3); (VUint 1, VUint 258)]).
  - apply perm_swap.
  - repeat constructor.
  - repeat constructor.
Qed.

(** C06. Unmarshal does not panic, for types without [optional] pointers and with non-negative minimums. *)
Theorem C06_no_panic_partial :
  forall (t : ty) (fuel : nat) (data : bytes),
    no_optional t null_opts -> unmarshal fuel t data <> Panic.
Proof. exact main_no_panic. Qed.
Print Assumptions C06_no_panic_partial.

Example C06_case :
  no_optional hello_ty null_opts /\ is_err (unmarshal 30 hello_ty (map b8 [3;3; 1;2; 0;9; 0;0])).
Proof. split; [simpl; intuition (discriminate || auto)|]. eexists; reflexivity. Qed.

(** The full property fails: an [optional] field met at the end of the input panics. *)
Theorem C06_optional_refuted :
  exists (t : ty) (data : bytes), ty_valid t = true /\ forall fuel, unmarshal fuel t data = Panic.
Proof. exact main_optional_panics. Qed.
Print Assumptions C06_optional_refuted.

(** C07. A number of loop iterations bounded by the input length suffices. *)
Theorem C07_terminates_partial :
  forall (t : ty) (fuel : nat) (data : bytes),
    elems_nonempty t null_opts -> (List.length data <= fuel)%nat -> unmarshal fuel t data <> Fuel.
Proof. exact main_terminates. Qed.
Print Assumptions C07_terminates_partial.

Example C07_case :
  elems_nonempty hello_ty null_opts /\ unmarshal 1 hello_ty (map b8 [3;3; 1;2; 0;4;19;1;19;2; 0;0]) = Fuel.
Proof. repeat split; simpl; auto. Qed.

(** The full property fails: a vector of elements occupying no bytes is never finished, whatever the budget. *)
Theorem C07_empty_elements_refuted :
  exists (t : ty) (data : bytes), ty_valid t = true /\ forall fuel, unmarshal fuel t data = Fuel.
Proof. exact main_diverges. Qed.
Print Assumptions C07_empty_elements_refuted.

(** C08. Accepted bytes are the bytes Marshal writes, for types without varints and maps. *)
Theorem C08_canonical_partial :
  forall (t : ty) (fuel : nat) (data : bytes) (v : val) (n : nat),
    fixed_form t null_opts -> unmarshal fuel t data = Ok (v, n) -> marshal t v = Ok (firstn n data).
Proof. exact main_canonical. Qed.
Print Assumptions C08_canonical_partial.

Example C08_case :
  fixed_form hello_ty null_opts /\
  unmarshal 30 hello_ty (map b8 [3;3; 1;2; 0;2;19;1; 0;0; 77])
  = Ok (VList [VUint 771; VList [VUint 1; VUint 2]; VList [VUint 4865]; VList []], 10%nat).
Proof. repeat split; simpl; intuition (discriminate || auto). Qed.

(** The full property fails for varints, which are accepted in any form, and for maps, which are accepted in any
    order and with repeated keys. *)
Theorem C08_varint_refuted :
  exists (t : ty) (data b : bytes) (v : val) (n : nat),
    unmarshal 10 t data = Ok (v, n) /\ marshal t v = Ok b /\ b <> firstn n data.
Proof. exact main_varint_not_canonical. Qed.
Print Assumptions C08_varint_refuted.
Theorem C08_map_refuted :
  exists (t : ty) (data b : bytes) (v : val) (n : nat),
    no_optional t null_opts /\ unmarshal 10 t data = Ok (v, n) /\ marshal t v = Ok b /\ b <> firstn n data.
Proof. exact main_map_not_canonical. Qed.
Print Assumptions C08_map_refuted.
