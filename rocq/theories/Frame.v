(** Model of /repo/frame-reader.go: incremental reading of header+body frames. *)
From Verif Require Import Base.

(** alert.go:50 AlertWouldBlock *)
Definition WouldBlock : err := EAlert 254.
(** The comparison [err != AlertWouldBlock] (record-layer.go:376, 310). *)
Definition is_wb (e : err) : bool := match e with EAlert a => a =? 254 | _ => false end.

(** frame-reader.go:5-9. [defaultReadLen] is not used by the reader. *)
Record framing := { headerLen : nat; frameLen : bytes -> res nat }.

Inductive fstate := FHdr | FBody.

(** frame-reader.go:18-26. [working] aliases [header] or [body] according to [state]
    (lines 35, 79, 91), so it is a function of the state here. *)
Record freader := mkFr { f_state : fstate; f_header : bytes; f_body : bytes; f_off : nat; f_rem : bytes }.

Definition working (f : freader) : bytes :=
  match f_state f with FHdr => f_header f | FBody => f_body f end.
Definition set_working (f : freader) (w : bytes) : freader :=
  match f_state f with
  | FHdr => mkFr FHdr w (f_body f) (f_off f) (f_rem f)
  | FBody => mkFr FBody (f_header f) w (f_off f) (f_rem f)
  end.

(** frame-reader.go:28-39 *)
Definition newFrameReader (d : framing) : freader := mkFr FHdr (repeat x00 (headerLen d)) [] 0 [].

(** frame-reader.go:47-53; truncated subtraction is the clamp at zero. *)
Definition needed (f : freader) : nat := List.length (working f) - f_off f - List.length (f_rem f).

(** frame-reader.go:55-59 *)
Definition addChunk (f : freader) (chunk : bytes) : freader :=
  mkFr (f_state f) (f_header f) (f_body f) (f_off f) (f_rem f ++ chunk).

(** frame-reader.go:65-67: [copy] into the working block from [writeOffset]. *)
Definition fill (f : freader) : freader :=
  let w := working f in
  let n := Nat.min (List.length w - f_off f) (List.length (f_rem f)) in
  let g := set_working f (firstn (f_off f) w ++ firstn n (f_rem f) ++ skipn (f_off f + n) w) in
  mkFr (f_state g) (f_header g) (f_body g) (f_off f + n) (skipn n (f_rem f)).

(** frame-reader.go:61-98; [fuel] bounds the loop (three rounds always suffice). *)
Fixpoint process_loop (fuel : nat) (d : framing) (f : freader) : freader * res (bytes * bytes) :=
  match fuel with
  | O => (f, Fuel)
  | S fuel =>
      if negb (needed f =? 0)%nat then (f, Err WouldBlock) else
      let f := fill f in
      if (f_off f <? List.length (working f))%nat then (f, Err WouldBlock) else
      match f_state f with
      | FBody => (mkFr FHdr (f_header f) (f_body f) 0 (f_rem f), Ok (f_header f, f_body f))
      | FHdr =>
          match frameLen d (f_header f) with
          | Ok n => process_loop fuel d (mkFr FBody (f_header f) (repeat x00 n) 0 (f_rem f))
          | Err e => (mkFr FHdr (f_header f) (f_body f) 0 (f_rem f), Err e)
          | Panic => (f, Panic)
          | Fuel => (f, Fuel)
          end
      end
  end.
Definition process (d : framing) (f : freader) : freader * res (bytes * bytes) := process_loop 3 d f.

(** What one [Read] on the underlying connection returns: bytes (possibly none), or an error.
    Used by record-layer.go:357-370. *)
Inductive rin := RBytes (b : bytes) | RError (e : err).

(** record-layer.go:350-379: read from the connection until a frame is complete. When the list of inputs is
    exhausted [Read] returns no bytes. [fuel] bounds the loop. *)
Fixpoint nextFrame_loop (fuel : nat) (d : framing) (conn : list rin) (f : freader)
  : list rin * freader * res (bytes * bytes) :=
  match fuel with
  | O => (conn, f, Fuel)
  | S fuel =>
      let step conn f :=
        match process d f with
        | (f, Err e) => if is_wb e then nextFrame_loop fuel d conn f else (conn, f, Err e)
        | (f, r) => (conn, f, r)
        end in
      if (0 <? needed f)%nat then
        match conn with
        | [] => ([], f, Err WouldBlock)
        | RError e :: conn => (conn, f, Err e)
        | RBytes [] :: conn => (conn, f, Err WouldBlock)
        | RBytes chunk :: conn => step conn (addChunk f chunk)
        end
      else step conn f
  end.
Definition nextFrame (d : framing) (conn : list rin) (f : freader) : list rin * freader * res (bytes * bytes) :=
  nextFrame_loop (S (S (List.length conn))) d conn f.
