(** What a struct tag of package [syntax] says: a comma-separated list of words and name=value pairs (the comments at
    /repo/syntax/tags.go:19-31 and 118-120). *)
From Coq Require Import Ascii.
From Verif Require Import Base Syntax.

Section Tag.
Local Open Scope string_scope.

Fixpoint lacks (c : Ascii.ascii) (s : string) : Prop := match s with "" => True | String x s => x <> c /\ lacks c s end.
Fixpoint join (l : list string) : string := match l with [] => "" | [t] => t | t :: l => t ++ "," ++ join l end.

(** Decimal numbers of Go's [int]. *)
Inductive numeral : string -> Z -> Prop :=
| numeral_one d : (d < 10)%N -> numeral (String (Ascii.ascii_of_N (48 + d)) "") (Z.of_N d)
| numeral_more s n d : numeral s n -> (d < 10)%N -> numeral (s ++ String (Ascii.ascii_of_N (48 + d)) "") (10 * n + Z.of_N d).
Definition number (s : string) (n : Z) : Prop :=
  (- 2 ^ 63 <= n < 2 ^ 63)%Z /\
  (numeral s n \/ (exists t, s = "+" ++ t /\ numeral t n) \/ (exists t, s = "-" ++ t /\ numeral t (- n))).

Inductive item := IVarint | IOptional | IOmit | IHeadNone | IHeadVarint | IHead (n : Z) | IMin (n : Z) | IMax (n : Z) | INothing.

Inductive means : string -> item -> Prop :=
| means_varint : means "varint" IVarint
| means_optional : means "optional" IOptional
| means_omit : means "omit" IOmit
| means_none : means "head=none" IHeadNone
| means_head_varint : means "head=varint" IHeadVarint
| means_head s n : number s n -> means ("head=" ++ s) (IHead n)
| means_min s n : number s n -> means ("min=" ++ s) (IMin n)
| means_max s n : number s n -> means ("max=" ++ s) (IMax n)
| means_word w : lacks "="%char w -> ~ In w ["varint"; "optional"; "omit"] -> means w INothing
| means_other k v : lacks "="%char k -> lacks "="%char v -> k <> "" -> v <> "" -> ~ In k ["head"; "min"; "max"] -> means (k ++ "=" ++ v) INothing.

(** The options a list of items stands for: a flag is set if it occurs, a number is the last one given. *)
Definition is_item (i j : item) : bool :=
  match i, j with IVarint, IVarint | IOptional, IOptional | IOmit, IOmit | IHeadNone, IHeadNone | IHeadVarint, IHeadVarint => true | _, _ => false end.
Definition last_given (f : item -> list Z) (l : list item) : Z := last (flat_map f l) 0%Z.
Definition options (l : list item) : fopts :=
  mkOpts (existsb (is_item IHeadNone) l) (existsb (is_item IHeadVarint) l)
    (last_given (fun i => match i with IHead n => [n] | _ => [] end) l)
    (last_given (fun i => match i with IMin n => [n] | _ => [] end) l)
    (last_given (fun i => match i with IMax n => [n] | _ => [] end) l)
    (existsb (is_item IVarint) l) (existsb (is_item IOptional) l) (existsb (is_item IOmit) l).

(** Options that do not contradict each other: one form of header, a minimum not above the maximum, and only one of
    "slice", "varint", "optional" and "omit". *)
Definition for_slices (o : fopts) : Prop :=
  omitHeader o = true \/ varintHeader o = true \/ headerSize o <> 0%Z \/ minSize o <> 0%Z \/ maxSize o <> 0%Z.
Definition coherent (o : fopts) : Prop :=
  ~ (omitHeader o = true /\ varintHeader o = true) /\
  (omitHeader o = true \/ varintHeader o = true -> headerSize o = 0%Z) /\
  (maxSize o <> 0 -> minSize o <= maxSize o)%Z /\
  (varint o = true -> ~ for_slices o /\ optional o = false /\ omit o = false) /\
  (optional o = true -> ~ for_slices o /\ omit o = false) /\
  (omit o = true -> ~ for_slices o).
End Tag.
