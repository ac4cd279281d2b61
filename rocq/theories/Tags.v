(** Model of the parsing of struct tags (/repo/syntax/tags.go:110-173). *)
From Coq Require Import Ascii.
From Verif Require Import Base Syntax.

Section Split.
Local Open Scope string_scope.

(** [strings.Split(s, sep)] for a separator of one character (tags.go:123-124); never empty. *)
Fixpoint split (c : Ascii.ascii) (s : string) : list string :=
  match s with
  | "" => [""]
  | String x s =>
      if Ascii.eqb x c then "" :: split c s
      else match split c s with t :: l => String x t :: l | [] => [String x ""] end
  end.

(** [strconv.Atoi] on a 64-bit machine: an optional sign and decimal digits within the range of [int] (used by tags.go:110-116). *)
Definition digit (c : Ascii.ascii) : option Z :=
  let n := Z.of_N (Ascii.N_of_ascii c) in if ((48 <=? n) && (n <=? 57))%Z then Some (n - 48)%Z else None.
Fixpoint digits (acc : Z) (s : string) : option Z :=
  match s with
  | "" => Some acc
  | String c s => match digit c with Some d => digits (10 * acc + d) s | None => None end
  end.
Definition magnitude (s : string) : option Z := match s with "" => None | _ => digits 0 s end.
Definition strconv_Atoi (s : string) : option Z :=
  let signed :=
    match s with
    | String c t =>
        if Ascii.eqb c "-"%char then option_map Z.opp (magnitude t) else if Ascii.eqb c "+"%char then magnitude t else magnitude s
    | "" => None
    end in
  match signed with
  | Some n => if ((- 2 ^ 63 <=? n) && (n <? 2 ^ 63))%Z then Some n else None
  | None => None
  end.

(** tags.go:110-116 *)
Definition atoi (s : string) : res Z := match strconv_Atoi s with Some n => Ok n | None => Panic end.

(** One token of the tag (tags.go:124-165). *)
Definition parse_token (o : fopts) (token : string) : res fopts :=
  match split "="%char token with
  | [w] =>
      if w =? "varint" then Ok (mkOpts (omitHeader o) (varintHeader o) (headerSize o) (minSize o) (maxSize o) true (optional o) (omit o))
      else if w =? "optional" then Ok (mkOpts (omitHeader o) (varintHeader o) (headerSize o) (minSize o) (maxSize o) (varint o) true (omit o))
      else if w =? "omit" then Ok (mkOpts (omitHeader o) (varintHeader o) (headerSize o) (minSize o) (maxSize o) (varint o) (optional o) true)
      else Ok o
  | [k; v] =>
      if (String.length k =? 0)%nat || (String.length v =? 0)%nat then Panic else
      if k =? "head" then
        if v =? "none" then Ok (mkOpts true (varintHeader o) (headerSize o) (minSize o) (maxSize o) (varint o) (optional o) (omit o))
        else if v =? "varint" then Ok (mkOpts (omitHeader o) true (headerSize o) (minSize o) (maxSize o) (varint o) (optional o) (omit o))
        else do n <- atoi v; Ok (mkOpts (omitHeader o) (varintHeader o) n (minSize o) (maxSize o) (varint o) (optional o) (omit o))
      else if k =? "min" then do n <- atoi v; Ok (mkOpts (omitHeader o) (varintHeader o) (headerSize o) n (maxSize o) (varint o) (optional o) (omit o))
      else if k =? "max" then do n <- atoi v; Ok (mkOpts (omitHeader o) (varintHeader o) (headerSize o) (minSize o) n (varint o) (optional o) (omit o))
      else Ok o
  | _ => Panic
  end.
Fixpoint parse_tokens (o : fopts) (l : list string) : res fopts :=
  match l with [] => Ok o | t :: l => do o <- parse_token o t; parse_tokens o l end.

(** tags.go:121-173 *)
Definition parseTag (tag : string) : res fopts :=
  do o <- parse_tokens null_opts (split ","%char tag);
  if negb (consistent o) then Panic else Ok o.

(** The fields of a struct with their tags as written in Go (syntax/encode.go:285-300, syntax/decode.go:384-399). *)
Fixpoint tagged (l : list (string * ty)) : res fields :=
  match l with
  | [] => Ok FNil
  | (tag, t) :: l =>
      do o <- parseTag tag;
      if negb (validForType o (kind_of t)) then Panic else
      do fs <- tagged l; Ok (FCons o t fs)
  end.
End Split.
