(** Model of package [syntax]: the TLS presentation language driven by reflection
    (/repo/syntax/encode.go, /repo/syntax/decode.go, /repo/syntax/tags.go). *)
From Verif Require Import Base.

(** syntax/tags.go:21-31. The integer options are Go [int]s and may be negative. *)
Record fopts := mkOpts {
  omitHeader : bool;
  varintHeader : bool;
  headerSize : Z;
  minSize : Z;
  maxSize : Z;
  varint : bool;
  optional : bool;
  omit : bool
}.

(** The zero value [fieldOptions{}] (syntax/encode.go:13, syntax/decode.go:55). *)
Definition null_opts : fopts := mkOpts false false 0 0 0 false false false.

(** Values reached by reflection. [VList] is an array, slice or struct; [VMap] a map given by some
    enumeration of its entries; [VNil]/[VPtr] a pointer. A nil slice and an empty slice are not
    distinguished. *)
Inductive val :=
| VUint (n : N)
| VList (l : list val)
| VMap (l : list (val * val))
| VNil
| VPtr (v : val).

Inductive usize := U8 | U16 | U32 | U64.
Definition usz (s : usize) : nat := match s with U8 => 1 | U16 => 2 | U32 => 4 | U64 => 8 end.

(** The Go types accepted by syntax/encode.go:68-96 and syntax/decode.go:73-101.
    [TValid p t] is a type with a value-receiver [ValidForTLS] that succeeds exactly when [p] holds;
    [TCustom z e d] is a type implementing [Marshaler] and [Unmarshaler] with zero value [z]
    (its methods are assumed not to panic). Struct fields carry their parsed tag.
    Recursive types, and types whose reflection kind is unsupported, are not modelled. *)
Inductive ty :=
| TUint (s : usize)
| TArray (n : nat) (t : ty)
| TSlice (t : ty)
| TStruct (fs : fields)
| TMap (k v : ty)
| TPtr (t : ty)
| TValid (p : val -> bool) (t : ty)
| TCustom (z : val) (e : val -> option bytes) (d : bytes -> option (val * nat))
with fields :=
| FNil
| FCons (o : fopts) (t : ty) (fs : fields).

Scheme ty_mut := Induction for ty Sort Prop
  with fields_mut := Induction for fields Sort Prop.
Combined Scheme ty_fields_ind from ty_mut, fields_mut.

(** ** Tags *)

(** syntax/tags.go:33-41 *)
Definition mutuallyExclusive (vals : list bool) : bool :=
  (List.length (filter (fun b => b) vals) <=? 1)%nat.

(** syntax/tags.go:43-69 *)
Definition consistent (o : fopts) : bool :=
  let headerPaths := [omitHeader o; varintHeader o; (1 <? headerSize o)%Z] in
  if negb (mutuallyExclusive headerPaths) then false else
  if ((0 <? maxSize o) && (maxSize o <? minSize o))%Z then false else
  let headerOpts := omitHeader o || varintHeader o || (1 <? headerSize o)%Z
                    || (0 <? maxSize o)%Z || (0 <? minSize o)%Z in
  if negb (mutuallyExclusive [headerOpts; varint o; optional o]) then false else
  let otherThanOmit := headerOpts || varint o || optional o in
  if negb (mutuallyExclusive [omit o; otherThanOmit]) then false else
  true.

Inductive kind := KUint | KArray | KSlice | KStruct | KMap | KPtr.

(** [reflect.Type.Kind]. A custom type is taken to be a struct. *)
Fixpoint kind_of (t : ty) : kind :=
  match t with
  | TUint _ => KUint | TArray _ _ => KArray | TSlice _ => KSlice | TStruct _ => KStruct
  | TMap _ _ => KMap | TPtr _ => KPtr | TValid _ t => kind_of t | TCustom _ _ _ => KStruct
  end.

(** syntax/tags.go:71-94 *)
Definition validForType (o : fopts) (k : kind) : bool :=
  let headerType := match k with KSlice | KMap => true | _ => false end in
  let headerTags := omitHeader o || varintHeader o || negb (headerSize o =? 0)%Z
                    || negb (minSize o =? 0)%Z || negb (maxSize o =? 0)%Z in
  if headerTags && negb headerType then false else
  if varint o && negb (match k with KUint => true | _ => false end) then false else
  if optional o && negb (match k with KPtr => true | _ => false end) then false else
  true.

(** The checks made while the encoder/decoder of a type is being built, before any data is touched
    (syntax/encode.go:278-303 and syntax/decode.go:376-402; parseTag's final check tags.go:168-170). *)
Fixpoint ty_valid (t : ty) : bool :=
  match t with
  | TUint _ | TCustom _ _ _ => true
  | TArray _ t | TSlice t | TPtr t | TValid _ t => ty_valid t
  | TMap k v => ty_valid k && ty_valid v
  | TStruct fs => fields_valid fs
  end
with fields_valid (fs : fields) : bool :=
  match fs with
  | FNil => true
  | FCons o t fs =>
      consistent o && validForType o (kind_of t) && (if omit o then true else ty_valid t)
      && fields_valid fs
  end.

(** ** Encoding *)

Definition ill {A} : res A := Err (EMsg "value does not have the type (impossible in Go)").

(** syntax/encode.go:173-189 *)
Definition writeVarint (u : N) : res bytes :=
  if 0 <? N.shiftr u 62 then Err (EMsg "uint value is too big for varint") else
  let '(n, two) :=
    if u <? 2 ^ (8 * 1 - 2) then (1%nat, 0)
    else if u <? 2 ^ (8 * 2 - 2) then (2%nat, 1)
    else if u <? 2 ^ (8 * 4 - 2) then (4%nat, 2)
    else (8%nat, 3) in
  Ok (be n (N.lor u (N.shiftl two (8 * N.of_nat n - 2)))).

(** syntax/encode.go:219-244 *)
Definition encodeLength (n : N) (o : fopts) : res bytes :=
  if ((0 <? maxSize o) && (maxSize o <? Z.of_N n))%Z then Err (EMsg "Encoded length more than max") else
  if (Z.of_N n <? minSize o)%Z then Err (EMsg "Encoded length less than min") else
  if omitHeader o then Ok [] else
  if varintHeader o then writeVarint n else
  if (0 <? headerSize o)%Z then
    if (0 <? Z.shiftr (Z.of_N n) (8 * headerSize o))%Z
    then Err (EMsg "Encoded length too long for header length")
    else Ok (be (Z.to_nat (headerSize o)) n)
  else Err (EMsg "Cannot encode a slice without a header length").

(** Elements of an array in order (syntax/encode.go:205-210). *)
Fixpoint enc_all (enc : val -> res bytes) (l : list val) : res bytes :=
  match l with
  | [] => Ok []
  | v :: l => do b <- enc v; do b' <- enc_all enc l; Ok (b ++ b')
  end.

(** Key and value encodings of a map in enumeration order (syntax/encode.go:349-358). *)
Fixpoint enc_pairs (ek ev : val -> res bytes) (l : list (val * val)) : res (list (bytes * bytes)) :=
  match l with
  | [] => Ok []
  | (k, v) :: l => do bk <- ek k; do bv <- ev v; do r <- enc_pairs ek ev l; Ok ((bk, bv) :: r)
  end.

(** [bytes.Compare(a, b) < 0] (syntax/encode.go:324-326). *)
Fixpoint blt (a b : bytes) : bool :=
  match a, b with
  | [], [] => false
  | [], _ :: _ => true
  | _ :: _, [] => false
  | x :: a, y :: b => if bN x <? bN y then true else if bN y <? bN x then false else blt a b
  end.

(** [sort.Sort] by key encoding (syntax/encode.go:360). The order of entries with equal keys is
    unspecified in Go; here the sort is stable. *)
Fixpoint insert_pair (p : bytes * bytes) (l : list (bytes * bytes)) : list (bytes * bytes) :=
  match l with
  | [] => [p]
  | q :: l' => if blt (fst q) (fst p) then q :: insert_pair p l' else p :: l
  end.
Definition sort_pairs (l : list (bytes * bytes)) : list (bytes * bytes) :=
  fold_right insert_pair [] l.

(** syntax/encode.go:336-341 *)
Definition flat_pairs (l : list (bytes * bytes)) : bytes :=
  concat (map (fun p => fst p ++ snd p) l).

(** Equality of map keys (Go [==]); only pointer-free keys are considered. *)
Fixpoint val_eqb (a b : val) {struct a} : bool :=
  let fix go l m := match l, m with
                    | [], [] => true
                    | x :: l, y :: m => val_eqb x y && go l m
                    | _, _ => false
                    end in
  let fix gom l m := match l, m with
                    | [], [] => true
                    | (x, x') :: l, (y, y') :: m => val_eqb x y && val_eqb x' y' && gom l m
                    | _, _ => false
                    end in
  match a, b with
  | VUint n, VUint m => n =? m
  | VList l, VList m => go l m
  | VMap l, VMap m => gom l m
  | VNil, VNil => true
  | VPtr v, VPtr w => val_eqb v w
  | _, _ => false
  end.

Definition key_in (k : val) (l : list (val * val)) : bool := existsb (fun p => val_eqb k (fst p)) l.

(** A Go map never holds the same key twice. *)
Fixpoint keys_nodup (l : list (val * val)) : bool :=
  match l with
  | [] => true
  | (k, _) :: l => negb (key_in k l) && keys_nodup l
  end.

(** The type encoders (syntax/encode.go:106-402). A value that is not of the type cannot occur in Go;
    the model answers [ill], so success implies well-typedness. *)
Fixpoint encode (t : ty) (o : fopts) (v : val) {struct t} : res bytes :=
  match t with
  | TUint s =>
      match v with
      | VUint n => if n <? 256 ^ N.of_nat (usz s)
                   then if varint o then writeVarint n else Ok (be (usz s) n)
                   else ill
      | _ => ill
      end
  | TArray n t' =>
      match v with
      | VList l => if (List.length l =? n)%nat then enc_all (encode t' o) l else ill
      | _ => ill
      end
  | TSlice t' =>
      match v with
      | VList l => do body <- enc_all (encode t' o) l;
                   do h <- encodeLength (len body) o;
                   Ok (h ++ body)
      | _ => ill
      end
  | TStruct fs =>
      match v with
      | VList l => encode_fields fs l
      | _ => ill
      end
  | TMap k e =>
      match v with
      | VMap l => if keys_nodup l then
                    do ps <- enc_pairs (encode k null_opts) (encode e null_opts) l;
                    let body := flat_pairs (sort_pairs ps) in
                    do h <- encodeLength (len body) o;
                    Ok (h ++ body)
                  else ill
      | _ => ill
      end
  | TPtr t' =>
      match v with
      | VNil => if optional o then Ok [b8 0] else Err (EMsg "Cannot encode nil pointer")
      | VPtr v' => do b <- encode t' o v'; Ok ((if optional o then [b8 1] else []) ++ b)
      | _ => ill
      end
  | TValid p t' => if p v then encode t' o v else Err (EMsg "Invalid TLS value")
  | TCustom _ e _ => match e v with Some b => Ok b | None => Err (EMsg "MarshalTLS error") end
  end
with encode_fields (fs : fields) (l : list val) {struct fs} : res bytes :=
  match fs, l with
  | FNil, [] => Ok []
  | FCons o t fs, v :: l =>
      if omit o then encode_fields fs l
      else do b <- encode t o v; do b' <- encode_fields fs l; Ok (b ++ b')
  | _, _ => ill
  end.

(** syntax/encode.go:11-18, 30-48 *)
Definition marshal (t : ty) (v : val) : res bytes :=
  if ty_valid t then encode t null_opts v else Err (EMsg "Tags invalid for field type").

(** ** Decoding *)

(** syntax/decode.go:199-206: the accumulator is a [uint64]. *)
Definition unbe64 (l : bytes) : N := unbe l mod 2 ^ 64.

(** [int(x)] of a [uint64]. *)
Definition to_int (u : N) : Z := if u <? 2 ^ 63 then Z.of_N u else Z.of_N u - 2 ^ 64.

(** syntax/decode.go:178-197: bytes read, value, rest of the buffer. *)
Definition readVarint (d : bytes) : res (nat * N * bytes) :=
  match d with
  | [] => Err (EMsg "Insufficient data to read varint length")
  | first :: d1 =>
      let varintLen := (2 ^ N.to_nat (N.shiftr (bN first) 6))%nat in
      let rest := firstn (varintLen - 1) d1 in
      if negb (List.length rest =? varintLen - 1)%nat then Err (EMsg "Insufficient data to read varint")
      else Ok (varintLen, unbe64 (b8 (N.land (bN first) 63) :: rest), skipn (varintLen - 1) d1)
  end.

(** syntax/decode.go:235-269 *)
Definition decodeLength (d : bytes) (o : fopts) : res (nat * Z * bytes) :=
  do '(read, length, d) <-
    (if omitHeader o then Ok (0%nat, Z.of_N (len d), d)
     else if varintHeader o then
       do '(r, u, d') <- readVarint d; Ok (r, to_int u, d')
     else if (0 <? headerSize o)%Z then
       let n := Z.to_nat (headerSize o) in
       let lb := firstn n d in
       if negb (List.length lb =? n)%nat then Err (EMsg "Not enough data to read header")
       else Ok (n, to_int (unbe64 lb), skipn n d)
     else Err (EMsg "Cannot decode a slice without a header length"));
  if ((0 <? maxSize o) && (maxSize o <? length))%Z then Err (EMsg "Length of vector exceeds declared max") else
  if (length <? minSize o)%Z then Err (EMsg "Length of vector below declared min") else
  Ok (read, length, d).

(** [d.Next(length)] followed by the length check (syntax/decode.go:283-286, 326-329): element data and rest.
    [bytes.Buffer.Next] with a negative count panics. *)
Definition takeElems (length : Z) (d : bytes) : res (bytes * bytes) :=
  if (length <? 0)%Z then Panic else
  if (Z.of_N (len d) <? length)%Z then Err (EMsg "Not enough data to read elements")
  else Ok (firstn (Z.to_nat length) d, skipn (Z.to_nat length) d).

(** The element loop [for elemBuf.Len() > 0] (syntax/decode.go:291-295); [fuel] bounds the iterations. *)
Fixpoint dec_many {A} (dec : bytes -> res (A * nat * bytes)) (fuel : nat) (d : bytes) : res (list A * nat) :=
  match d with
  | [] => Ok ([], 0%nat)
  | _ :: _ =>
      match fuel with
      | O => Fuel
      | S f => do '(v, r, d') <- dec d;
               do '(vs, r') <- dec_many dec f d';
               Ok (v :: vs, (r + r')%nat)
      end
  end.

(** Exactly [n] elements (syntax/decode.go:219-226). *)
Fixpoint dec_n (dec : bytes -> res (val * nat * bytes)) (n : nat) (d : bytes) : res (list val * nat * bytes) :=
  match n with
  | O => Ok ([], 0%nat, d)
  | S n => do '(v, r, d') <- dec d;
           do '(vs, r', d'') <- dec_n dec n d';
           Ok (v :: vs, (r + r')%nat, d'')
  end.

(** One key/value pair (syntax/decode.go:338-342). *)
Definition dec_pair (dk dv : bytes -> res (val * nat * bytes)) (d : bytes) : res ((val * val) * nat * bytes) :=
  do '(k, r, d1) <- dk d;
  do '(v, r', d2) <- dv d1;
  Ok ((k, v), (r + r')%nat, d2).

(** [SetMapIndex] (syntax/decode.go:344): a later entry replaces an earlier one with the same key. *)
Fixpoint map_set (k v : val) (m : list (val * val)) : list (val * val) :=
  match m with
  | [] => [(k, v)]
  | (k', v') :: m => if val_eqb k k' then (k', v) :: m else (k', v') :: map_set k v m
  end.
Definition map_of (l : list (val * val)) : list (val * val) :=
  fold_left (fun m p => map_set (fst p) (snd p) m) l [].

(** Zero value of a type ([reflect.New], used for omitted fields: syntax/decode.go:105-107). *)
Fixpoint zero (t : ty) : val :=
  match t with
  | TUint _ => VUint 0
  | TArray n t => VList (repeat (zero t) n)
  | TSlice _ => VList []
  | TStruct fs => VList (zeros fs)
  | TMap _ _ => VMap []
  | TPtr _ => VNil
  | TValid _ t => zero t
  | TCustom z _ _ => z
  end
with zeros (fs : fields) : list val :=
  match fs with FNil => [] | FCons _ t fs => zero t :: zeros fs end.

(** The type decoders (syntax/decode.go:105-437): value, bytes reported as read, rest of the buffer. *)
Fixpoint decode (fuel : nat) (t : ty) (o : fopts) (d : bytes) {struct t} : res (val * nat * bytes) :=
  match t with
  | TUint s =>
      if varint o then
        do '(l, u, d') <- readVarint d;
        if (usz s <? l)%nat then Err (EMsg "Uint too small to fit varint")
        else Ok (VUint (u mod 256 ^ N.of_nat (usz s)), l, d')
      else
        let buf := firstn (usz s) d in
        if negb (List.length buf =? usz s)%nat then Err (EMsg "Insufficient data to read uint")
        else Ok (VUint (unbe64 buf mod 256 ^ N.of_nat (usz s)), List.length buf, skipn (usz s) d)
  | TArray n t' => do '(l, r, d') <- dec_n (decode fuel t' o) n d; Ok (VList l, r, d')
  | TSlice t' =>
      do '(read, length, d1) <- decodeLength d o;
      do '(elemData, d2) <- takeElems length d1;
      do '(l, r) <- dec_many (decode fuel t' o) fuel elemData;
      Ok (VList l, (read + r)%nat, d2)
  | TStruct fs => do '(l, r, d') <- decode_fields fuel fs d; Ok (VList l, r, d')
  | TMap k e =>
      do '(read, length, d1) <- decodeLength d o;
      do '(elemData, d2) <- takeElems length d1;
      do '(l, r) <- dec_many (dec_pair (decode fuel k null_opts) (decode fuel e null_opts)) fuel elemData;
      Ok (VMap (map_of l), (read + r)%nat, d2)
  | TPtr t' =>
      if optional o then
        match d with
        | [] => Panic  (* flag := d.Next(1); flag[0] *)
        | b :: d1 =>
            if bN b =? 0 then Ok (VNil, 1%nat, d1)
            else if bN b =? 1 then
              do '(v, r, d2) <- decode fuel t' o d1; Ok (VPtr v, (1 + r)%nat, d2)
            else Err (EMsg "Invalid flag byte for optional")
        end
      else do '(v, r, d') <- decode fuel t' o d; Ok (VPtr v, r, d')
  | TValid p t' =>
      do '(v, r, d') <- decode fuel t' o d;
      if p v then Ok (v, r, d') else Err (EMsg "Decoded invalid TLS value")
  | TCustom _ _ dc =>
      match dc d with
      | None => Err (EMsg "UnmarshalTLS error")
      | Some (v, r) => if (List.length d <? r)%nat then Err (EMsg "Invalid return value from UnmarshalTLS")
                       else Ok (v, r, skipn r d)
      end
  end
with decode_fields (fuel : nat) (fs : fields) (d : bytes) {struct fs} : res (list val * nat * bytes) :=
  match fs with
  | FNil => Ok ([], 0%nat, d)
  | FCons o t fs =>
      do '(v, r, d1) <- (if omit o then Ok (zero t, 0%nat, d) else decode fuel t o d);
      do '(l, r', d2) <- decode_fields fuel fs d1;
      Ok (v :: l, (r + r')%nat, d2)
  end.

(** syntax/decode.go:10-17, 32-52: value and number of bytes read. *)
Definition unmarshal (fuel : nat) (t : ty) (data : bytes) : res (val * nat) :=
  if ty_valid t then do '(v, r, _) <- decode fuel t null_opts data; Ok (v, r)
  else Err (EMsg "Tags invalid for field type").
