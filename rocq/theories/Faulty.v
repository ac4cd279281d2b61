(** Model of writing to a connection that may fail: /repo/record-layer.go:453-509 and /repo/conn.go:471-508 again, without the assumption of Record.v that [r.conn.Write] succeeds. *)
From Verif Require Import Base Record Crypto Messages Negotiation Machine Conn.

(** What [r.conn.Write] (record-layer.go:507) does with a record: it takes all of it, or some bytes at its front and then fails. *)
Inductive fate := Accepts | Breaks (n : nat).
(** record-layer.go:507-508 *)
Definition put (f : fate) (record : bytes) : bytes * res unit :=
  match f with Accepts => (record, Ok tt) | Breaks n => (firstn n record, Err (EMsg "write")) end.
(** record-layer.go:453-455, 461-509: the sequence number is counted up before the record is written. *)
Definition writeRecordOver (f : fate) (l : rlayer) (pt : plaintext) : rlayer * res unit :=
  let i := r_cipher (l_core l) in
  match protect (l_core l) i pt 0 with
  | Ok (record, c') => let '(b, r) := put f record in (mkRl (set_cs (l_core l) i c') (l_frame l) (l_cached l) (l_in l) (l_out l ++ [b]), r)
  | Err e => (l, Err e)
  | Panic => (l, Panic)
  | Fuel => (l, Fuel)
  end.
(** conn.go:482-506. [fs]: the fates of the records, one after another; [Accepts] when they have run out. *)
Fixpoint write_loop_over (fuel : nat) (fs : list fate) (c : conn) (buffer : bytes) (sent : nat) : conn * (nat * res unit) :=
  match buffer with
  | [] => (c, (sent, Ok tt))
  | _ =>
  match fuel with
  | O => (c, (sent, Fuel))
  | S fuel =>
      let n := Nat.min (N.to_nat maxFragmentLen) (List.length buffer) in
      let '(l, r) := writeRecordOver (hd Accepts fs) (c_out c) (mkPt rtApplicationData 0 0 (firstn n buffer)) in
      let c := upd_out c l in
      match r with
      | Ok _ => write_loop_over fuel (tl fs) c (skipn n buffer) (sent + n)
      | r => (c, (sent, r))
      end
  end
  end.
(** conn.go:471-508 *)
Definition writeOver (fs : list fate) (c : conn) (buffer : bytes) : conn * (nat * res unit) :=
  if negb (writable c) then (c, (0%nat, Err (EMsg "Write called before the handshake completed (and early data not in use)")))
  else write_loop_over (List.length buffer) fs c buffer 0.
(** Records written one after another, whatever becomes of each: record-layer.go:453-455. *)
Fixpoint records_over (l : rlayer) (rs : list (fate * plaintext)) : rlayer :=
  match rs with [] => l | (f, pt) :: rs => records_over (fst (writeRecordOver f l pt)) rs end.
