(** Specification vocabulary for package [syntax], independent of the encoder and decoder:
    which types are covered, when two values are equal, how big a value is on the wire, and what
    the declared limits mean. *)
From Verif Require Import Base Syntax.
From Coq Require Import Permutation.

(** Equality of Go values: maps are unordered. *)
Inductive veq : val -> val -> Prop :=
| veq_uint n : veq (VUint n) (VUint n)
| veq_list l m : Forall2 veq l m -> veq (VList l) (VList m)
| veq_map l l' m : Permutation l l' ->
    Forall2 veq (map fst l') (map fst m) -> Forall2 veq (map snd l') (map snd m) ->
    veq (VMap l) (VMap m)
| veq_nil : veq VNil VNil
| veq_ptr v w : veq v w -> veq (VPtr v) (VPtr w).

(** The value with its [omit]-tagged fields reset to zero: those never travel. *)
Fixpoint visible (t : ty) (v : val) : val :=
  match t, v with
  | TArray _ t', VList l => VList (map (visible t') l)
  | TSlice t', VList l => VList (map (visible t') l)
  | TStruct fs, VList l => VList (visibles fs l)
  | TMap k e, VMap l => VMap (map (fun p => (visible k (fst p), visible e (snd p))) l)
  | TPtr t', VPtr v => VPtr (visible t' v)
  | TValid _ t', v => visible t' v
  | _, v => v
  end
with visibles (fs : fields) (l : list val) : list val :=
  match fs, l with
  | FCons o t fs, v :: l => (if omit o then zero t else visible t v) :: visibles fs l
  | _, l => l
  end.

(** Every value of the type occupies at least one byte. *)
Fixpoint nonempty (t : ty) (o : fopts) : Prop :=
  match t with
  | TUint _ => True
  | TArray n t => n <> 0%nat /\ nonempty t o
  | TSlice _ | TMap _ _ => omitHeader o = false \/ (0 < minSize o)%Z
  | TStruct fs => nonempty_fields fs
  | TPtr t => optional o = true \/ nonempty t o
  | TValid _ t => nonempty t o
  | TCustom _ e d => (forall v b, e v = Some b -> b <> []) /\ (forall b v r, d b = Some (v, r) -> r <> 0%nat)
  end
with nonempty_fields (fs : fields) : Prop :=
  match fs with
  | FNil => False
  | FCons o t fs => (omit o = false /\ nonempty t o) \/ nonempty_fields fs
  end.

(** All vectors and maps inside the type have elements that occupy at least one byte. *)
Fixpoint elems_nonempty (t : ty) (o : fopts) : Prop :=
  match t with
  | TUint _ | TCustom _ _ _ => True
  | TArray _ t | TPtr t | TValid _ t => elems_nonempty t o
  | TSlice t => nonempty t o /\ elems_nonempty t o
  | TMap k v => (nonempty k null_opts \/ nonempty v null_opts)
                /\ elems_nonempty k null_opts /\ elems_nonempty v null_opts
  | TStruct fs => elems_nonempty_fields fs
  end
with elems_nonempty_fields (fs : fields) : Prop :=
  match fs with
  | FNil => True
  | FCons o t fs => (omit o = false -> elems_nonempty t o) /\ elems_nonempty_fields fs
  end.

(** Key types: integers, arrays and structs of them, without omitted fields. *)
Fixpoint key_ty (t : ty) : bool :=
  match t with
  | TUint _ => true
  | TArray _ t => key_ty t
  | TStruct fs => key_fields fs
  | _ => false
  end
with key_fields (fs : fields) : bool :=
  match fs with
  | FNil => true
  | FCons o t fs => negb (omit o) && key_ty t && key_fields fs
  end.

Fixpoint all_omitted (fs : fields) : bool :=
  match fs with FNil => true | FCons o _ fs => omit o && all_omitted fs end.

(** A vector without a length header ([head=none]) extends to the end of the input, so it may only come
    last. [delimited last t o]: this holds when [last] says that nothing follows the value. *)
Fixpoint delimited (last : bool) (t : ty) (o : fopts) : Prop :=
  match t with
  | TUint _ | TCustom _ _ _ => True
  | TArray _ t => delimited false t o
  | TSlice t => (omitHeader o = true -> last = true) /\ delimited false t o
  | TMap k v => (omitHeader o = true -> last = true) /\ delimited false k null_opts /\ delimited false v null_opts
  | TStruct fs => delimited_fields last fs
  | TPtr t | TValid _ t => delimited last t o
  end
with delimited_fields (last : bool) (fs : fields) : Prop :=
  match fs with
  | FNil => True
  | FCons o t fs => (omit o = false -> delimited (last && all_omitted fs) t o) /\ delimited_fields last fs
  end.

(** Laws asked of user-supplied methods: [UnmarshalTLS] inverts [MarshalTLS] and ignores what follows;
    [ValidForTLS] accepts the received copy of a value it accepted. Map keys are pointer-free. *)
Fixpoint lawful (t : ty) : Prop :=
  match t with
  | TUint _ => True
  | TArray _ t | TSlice t | TPtr t => lawful t
  | TMap k v => key_ty k = true /\ lawful k /\ lawful v
  | TStruct fs => lawful_fields fs
  | TValid p t => lawful t /\ (forall v v', p v = true -> veq (visible t v) v' -> p v' = true)
  | TCustom _ e d => forall v b tail, e v = Some b -> d (b ++ tail) = Some (v, List.length b)
  end
with lawful_fields (fs : fields) : Prop :=
  match fs with
  | FNil => True
  | FCons o t fs => (omit o = false -> lawful t) /\ lawful_fields fs
  end.

(** Law for reading: an [UnmarshalTLS] that succeeds looked only at the bytes it reports. *)
Fixpoint prefix_reader (t : ty) : Prop :=
  match t with
  | TUint _ => True
  | TArray _ t | TSlice t | TPtr t | TValid _ t => prefix_reader t
  | TMap k v => prefix_reader k /\ prefix_reader v
  | TStruct fs => prefix_reader_fields fs
  | TCustom _ _ d => forall b v r tail, d b = Some (v, r) -> (r <= List.length b)%nat ->
                       d (firstn r b ++ tail) = Some (v, r)
  end
with prefix_reader_fields (fs : fields) : Prop :=
  match fs with
  | FNil => True
  | FCons _ t fs => prefix_reader t /\ prefix_reader_fields fs
  end.

(** Length of the shortest varint holding [n] (RFC 9000 section 16). *)
Definition varint_size (n : N) : N :=
  if n <? 64 then 1 else if n <? 16384 then 2 else if n <? 1073741824 then 4 else 8.

Definition sumN (l : list N) : N := fold_right N.add 0 l.

(** Size of the length header of a vector of [n] bytes. *)
Definition header_len (o : fopts) (n : N) : N :=
  if omitHeader o then 0 else if varintHeader o then varint_size n else Z.to_N (headerSize o).

(** Size of a value on the wire, computed by arithmetic alone. *)
Fixpoint wire_size (t : ty) (o : fopts) (v : val) : N :=
  match t, v with
  | TUint s, VUint n => if varint o then varint_size n else N.of_nat (usz s)
  | TArray _ t, VList l => sumN (map (wire_size t o) l)
  | TSlice t, VList l => let n := sumN (map (wire_size t o) l) in header_len o n + n
  | TStruct fs, VList l => wire_sizes fs l
  | TMap k e, VMap l =>
      let n := sumN (map (fun p => wire_size k null_opts (fst p) + wire_size e null_opts (snd p)) l) in
      header_len o n + n
  | TPtr t, VNil => 1
  | TPtr t, VPtr v => (if optional o then 1 else 0) + wire_size t o v
  | TValid _ t, v => wire_size t o v
  | TCustom _ e _, v => match e v with Some b => len b | None => 0 end
  | _, _ => 0
  end
with wire_sizes (fs : fields) (l : list val) : N :=
  match fs, l with
  | FCons o t fs, v :: l => (if omit o then 0 else wire_size t o v) + wire_sizes fs l
  | _, _ => 0
  end.

(** The declared limits of a vector whose contents occupy [n] bytes. *)
Definition within (o : fopts) (n : N) : Prop :=
  ((0 < maxSize o)%Z -> (Z.of_N n <= maxSize o)%Z) /\
  (minSize o <= Z.of_N n)%Z /\
  (omitHeader o = false -> varintHeader o = true -> n < 2 ^ 62) /\
  (omitHeader o = false -> varintHeader o = false -> (0 < headerSize o)%Z /\ (Z.of_N n < 256 ^ headerSize o)%Z).

(** The values of a type that can be sent: integers in range (below 2^62 as a varint), arrays of the
    declared length, vectors and maps within their limits, pointers non-nil unless optional, maps without
    repeated keys, values accepted by the user's own methods. Omitted fields are unconstrained. *)
Fixpoint encodable (t : ty) (o : fopts) (v : val) : Prop :=
  match t, v with
  | TUint s, VUint n => n < 256 ^ N.of_nat (usz s) /\ (varint o = true -> n < 2 ^ 62)
  | TArray n t, VList l => List.length l = n /\ Forall (encodable t o) l
  | TSlice t, VList l => within o (sumN (map (wire_size t o) l)) /\ Forall (encodable t o) l
  | TStruct fs, VList l => encodable_fields fs l
  | TMap k e, VMap l =>
      NoDup (map fst l)
      /\ within o (sumN (map (fun p => wire_size k null_opts (fst p) + wire_size e null_opts (snd p)) l))
      /\ Forall (fun p => encodable k null_opts (fst p) /\ encodable e null_opts (snd p)) l
  | TPtr t, VNil => optional o = true
  | TPtr t, VPtr v => encodable t o v
  | TValid p t, v => p v = true /\ encodable t o v
  | TCustom _ e _, v => e v <> None
  | _, _ => False
  end
with encodable_fields (fs : fields) (l : list val) : Prop :=
  match fs, l with
  | FNil, [] => True
  | FCons o t fs, v :: l => (omit o = false -> encodable t o v) /\ encodable_fields fs l
  | _, _ => False
  end.

(** No [optional] pointer is reachable and no negative minimum is declared. *)
Fixpoint no_optional (t : ty) (o : fopts) : Prop :=
  match t with
  | TUint _ | TCustom _ _ _ => True
  | TArray _ t | TValid _ t => no_optional t o
  | TSlice t => (0 <= minSize o)%Z /\ no_optional t o
  | TMap k v => (0 <= minSize o)%Z /\ no_optional k null_opts /\ no_optional v null_opts
  | TPtr t => optional o = false /\ no_optional t o
  | TStruct fs => no_optional_fields fs
  end
with no_optional_fields (fs : fields) : Prop :=
  match fs with
  | FNil => True
  | FCons o t fs => (omit o = false -> no_optional t o) /\ no_optional_fields fs
  end.

(** Types with one encoding per value: no varints, no maps, headers of at most 8 bytes. *)
Fixpoint fixed_form (t : ty) (o : fopts) : Prop :=
  match t with
  | TUint _ => varint o = false
  | TArray _ t | TPtr t | TValid _ t => fixed_form t o
  | TSlice t => (omitHeader o = false -> varintHeader o = false /\ (headerSize o <= 8)%Z) /\ fixed_form t o
  | TMap _ _ => False
  | TStruct fs => fixed_form_fields fs
  | TCustom _ e d => forall b v r, d b = Some (v, r) -> (r <= List.length b)%nat -> e v = Some (firstn r b)
  end
with fixed_form_fields (fs : fields) : Prop :=
  match fs with
  | FNil => True
  | FCons o t fs => (omit o = false -> fixed_form t o) /\ fixed_form_fields fs
  end.

(** Every varint-tagged integer is small enough for a varint no wider than its own Go type. *)
Fixpoint varints_fit (t : ty) (o : fopts) (v : val) : Prop :=
  match t, v with
  | TUint s, VUint n => varint o = true -> n < 2 ^ (8 * N.of_nat (usz s) - 2)
  | TArray _ t, VList l => Forall (varints_fit t o) l
  | TSlice t, VList l => Forall (varints_fit t o) l
  | TStruct fs, VList l => varints_fit_fields fs l
  | TMap k e, VMap l => Forall (fun p => varints_fit k null_opts (fst p) /\ varints_fit e null_opts (snd p)) l
  | TPtr t, VPtr v => varints_fit t o v
  | TValid _ t, v => varints_fit t o v
  | _, _ => True
  end
with varints_fit_fields (fs : fields) (l : list val) : Prop :=
  match fs, l with
  | FCons o t fs, v :: l => (omit o = false -> varints_fit t o v) /\ varints_fit_fields fs l
  | _, _ => True
  end.

(** The user's own methods do not depend on the enumeration order of maps inside the value. *)
Fixpoint order_blind (t : ty) : Prop :=
  match t with
  | TUint _ => True
  | TArray _ t | TSlice t | TPtr t => order_blind t
  | TMap k v => key_ty k = true /\ order_blind v
  | TStruct fs => order_blind_fields fs
  | TValid p t => order_blind t /\ (forall v v', veq v v' -> p v = true -> p v' = true)
  | TCustom _ e _ => forall v v', veq v v' -> e v = e v'
  end
with order_blind_fields (fs : fields) : Prop :=
  match fs with
  | FNil => True
  | FCons o t fs => (omit o = false -> order_blind t) /\ order_blind_fields fs
  end.
