(** Goroutines that share the output layer of a connection: calls cut at their accesses to what is shared. *)
From Verif Require Import Base Frame Record.

(** What a call does to the output layer: [WriteRecord] (record-layer.go:453-455) and [Rekey] (179-189). *)
Inductive op := BRecord (pt : plaintext) | BRekey (epoch : N) (k : aead) (iv : bytes).
(** A call, and whether it holds [c.out.Lock()] throughout. [Write] does (conn.go:471-474); [Read], when it answers a KeyUpdate or
    sends an alert (conn.go:339-366, 510-533), and [SendKeyUpdate] (conn.go:839-866) do not. *)
Record gocall := mkGo { g_locked : bool; g_ops : list op }.

(** record-layer.go:461-502: the record for a sequence number that was read before. *)
Definition sealRecord (r : rcore) (c : cstate) (seq : N) (pt : plaintext) : res bytes :=
  do '(header, ciphertext) <-
    match c_aead c with
    | Some k =>
        do header <- recordHeader (r_datagram r) (r_version r) rtApplicationData seq
                       (List.length (p_fragment pt) + 1 + 0 + overhead k);
        do ct <- encrypt r c k seq header pt 0;
        Ok (header, ct)
    | None =>
        do header <- recordHeader (r_datagram r) (r_version r) (p_type pt) seq (List.length (p_fragment pt));
        Ok (header, p_fragment pt)
    end;
  if maxFragmentLen <? len ciphertext then Err (EMsg "tls.record: Record size too big") else Ok (header ++ ciphertext).

(** Where a goroutine is in [writeRecordWithPadding] (record-layer.go:461-509). *)
Inductive pc :=
| AtStart
| HasCipher (i : nat)                          (* r.cipher was read: 454 *)
| HasSeq (i : nat) (seq : N)                   (* cipher.seq was read: 462, 202-208 *)
| HasRecord (i : nat) (record : bytes)         (* the record is sealed: 463-502 *)
| HasCount (i : nat) (v : N) (record : bytes)  (* cipher.seq was read again: 227-234 *)
| HasCounted (record : bytes).                 (* cipher.seq was written: 234 *)

(** A goroutine: the call it is in, with what is left of it, and the calls to come. *)
Record thread := mkTh { th_now : option (bool * list op * pc); th_next : list gocall }.
(** The layer and who holds its lock (record-layer.go:86). *)
Record shared := mkSh { sh_layer : rlayer; sh_lock : option nat; sh_threads : list thread }.
(** Reading and writing parts of the state; no counterpart in the code. *)
Definition no_thread : thread := mkTh None [].
Definition get_th (s : shared) (t : nat) : thread := nth t (sh_threads s) no_thread.
Definition set_th (s : shared) (t : nat) (h : thread) : list thread := set_nth t h (sh_threads s).
Definition with_core (l : rlayer) (r : rcore) : rlayer := mkRl r (l_frame l) (l_cached l) (l_in l) (l_out l).
Definition put_record (l : rlayer) (b : bytes) : rlayer := mkRl (l_core l) (l_frame l) (l_cached l) (l_in l) (l_out l ++ [b]).
Definition set_seq (c : cstate) (v : N) : cstate := mkCs (c_epoch c) v (c_iv c) (c_aead c).

(** One step of the call a goroutine is in, other than its end. A failure ends the call; so does a panic, which the application may recover
    from. The comparison of record-layer.go:227 and the reading of 234 are one step. *)
Definition op_step (l : rlayer) (ops : list op) (p : pc) : rlayer * (list op * pc) :=
  match ops with
  | [] => (l, ([], AtStart))
  | BRekey e k iv :: ops => (with_core l (rekey (l_core l) e k iv), (ops, AtStart))
  | BRecord pt :: rest =>
      match p with
      | AtStart => (l, (ops, HasCipher (r_cipher (l_core l))))
      | HasCipher i => (l, (ops, HasSeq i (combineSeq (get_cs (l_core l) i) (r_datagram (l_core l)))))
      | HasSeq i seq =>
          match sealRecord (l_core l) (get_cs (l_core l) i) seq pt with
          | Ok record => (l, (ops, HasRecord i record))
          | _ => (l, ([], AtStart))
          end
      | HasRecord i record =>
          let v := c_seq (get_cs (l_core l) i) in
          if 2 ^ 48 - 1 <=? v then (l, ([], AtStart)) else (l, (ops, HasCount i v record))
      | HasCount i v record => (with_core l (set_cs (l_core l) i (set_seq (get_cs (l_core l) i) (v + 1))), (ops, HasCounted record))
      | HasCounted record => (put_record l record, (rest, AtStart))
      end
  end.
(** One step of goroutine [t]: it starts a call, and waits if it needs a lock that is held; it goes on with its call; or it ends it. *)
Definition step (t : nat) (s : shared) : shared :=
  match th_now (get_th s t) with
  | None =>
      match th_next (get_th s t) with
      | [] => s
      | g :: next =>
          let h := mkTh (Some (g_locked g, g_ops g, AtStart)) next in
          if g_locked g then
            match sh_lock s with
            | Some _ => s
            | None => mkSh (sh_layer s) (Some t) (set_th s t h)
            end
          else mkSh (sh_layer s) (sh_lock s) (set_th s t h)
      end
  | Some (locked, [], _) => mkSh (sh_layer s) (if locked : bool then None else sh_lock s) (set_th s t (mkTh None (th_next (get_th s t))))
  | Some (locked, ops, p) =>
      let '(l, (ops, p)) := op_step (sh_layer s) ops p in
      mkSh l (sh_lock s) (set_th s t (mkTh (Some (locked, ops, p)) (th_next (get_th s t))))
  end.
(** The goroutines take their steps in the order of a schedule. *)
Fixpoint run (schedule : list nat) (s : shared) : shared :=
  match schedule with [] => s | t :: schedule => run schedule (step t s) end.
Definition start (l : rlayer) (calls : list (list gocall)) : shared := mkSh l None (map (mkTh None) calls).

(** conn.go:480-506: the records of [Write], for a connection that is writable. *)
Fixpoint fragments (fuel : nat) (buffer : bytes) : list bytes :=
  match buffer, fuel with
  | [], _ | _, O => []
  | _, S fuel => let n := Nat.min (N.to_nat maxFragmentLen) (List.length buffer) in firstn n buffer :: fragments fuel (skipn n buffer)
  end.
(** conn.go:471-508 *)
Definition write_call (buffer : bytes) : gocall :=
  mkGo true (map (fun f => BRecord (mkPt rtApplicationData 0 0 f)) (fragments (List.length buffer) buffer)).
