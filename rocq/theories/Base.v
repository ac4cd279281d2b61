(** Shared vocabulary of the model: bytes, big-endian integers, results of Go calls. *)
From Coq Require Export String NArith ZArith Bool Lia.
From Coq Require Export Strings.Byte List.
From Coq Require Export ZifyBool ZifyNat ZifyN.
Export ListNotations.
Open Scope list_scope.
Open Scope N_scope.

(** A Go [byte] is the 256-element type of the standard library; [[]byte] is a list of them
    (slice capacity and aliasing are modelled only where a file says so). *)
Definition bytes := list byte.

(** Conversion of an integer to a byte keeps the low eight bits, as Go's [byte(x)] does. *)
Definition b8 (n : N) : byte :=
  match Byte.of_N (n mod 256) with Some b => b | None => x00 end.

Definition bN (b : byte) : N := Byte.to_N b.

(** [len(x)] as an unbounded integer. *)
Definition len {A} (l : list A) : N := N.of_nat (List.length l).

(** Errors returned by Go calls: an [Alert] used as an error (alert.go:9, 99; every [Alert] is an [error]),
    the distinguished [DecryptError] (record-layer.go:19-23), or any [fmt.Errorf] message. *)
Inductive err :=
| EAlert (a : N)
| EDecrypt
| EMsg (s : string).

(** Outcome of a Go call: normal return, error return, runtime panic (index out of range, nil
    dereference, explicit [panic] with a string, ...), or exhaustion of the model's fuel for a loop. *)
Inductive res (A : Type) :=
| Ok (a : A)
| Err (e : err)
| Panic
| Fuel.
Arguments Ok {A} a.
Arguments Err {A} e.
Arguments Panic {A}.
Arguments Fuel {A}.

Definition bind {A B} (x : res A) (f : A -> res B) : res B :=
  match x with Ok a => f a | Err e => Err e | Panic => Panic | Fuel => Fuel end.

Notation "'do' x <- a ; b" := (bind a (fun x => b))
  (at level 200, x name, a at level 100, b at level 200).
Notation "'do' ' x <- a ; b" := (bind a (fun x => b))
  (at level 200, x strict pattern, a at level 100, b at level 200).

Definition is_ok {A} (r : res A) : Prop := exists a, r = Ok a.
Definition is_err {A} (r : res A) : Prop := exists e, r = Err e.

(** Big-endian encoding of [u] on [n] bytes, high bits dropped: the loop shared by
    syntax/encode.go:191-197 (writeUint) and handshake-layer.go:538-544 (encodeUint). *)
Fixpoint be (n : nat) (u : N) : bytes :=
  match n with
  | O => []
  | S n' => b8 (N.shiftr u (8 * N.of_nat n')) :: be n' u
  end.

(** Big-endian decoding, unbounded: [val = val << 8 + b] over the bytes. *)
Definition unbe_from (acc : N) (l : bytes) : N :=
  fold_left (fun a b => a * 256 + bN b) l acc.
Definition unbe (l : bytes) : N := unbe_from 0 l.

(** Byte-string equality ([bytes.Equal]). *)
Fixpoint beqb (a b : bytes) : bool :=
  match a, b with
  | [], [] => true
  | x :: a', y :: b' => Byte.eqb x y && beqb a' b'
  | _, _ => false
  end.

(** ** Facts *)

Lemma bN_lt b : bN b < 256.
Proof. unfold bN. pose proof (Byte.to_N_bounded b). lia. Qed.

Lemma bN_b8 n : bN (b8 n) = n mod 256.
Proof.
  unfold b8, bN. destruct (Byte.of_N (n mod 256)) eqn:E.
  - now apply Byte.to_of_N.
  - apply Byte.of_N_None_iff in E. pose proof (N.mod_lt n 256). lia.
Qed.

Lemma b8_bN b : b8 (bN b) = b.
Proof.
  unfold b8, bN. pose proof (Byte.to_N_bounded b).
  rewrite N.mod_small by lia. now rewrite Byte.of_to_N.
Qed.

Lemma bN_inj a b : bN a = bN b -> a = b.
Proof. intros H. rewrite <- (b8_bN a), <- (b8_bN b). now f_equal. Qed.

Lemma b8_mod a : b8 (a mod 256) = b8 a.
Proof. apply bN_inj. rewrite !bN_b8. apply N.mod_mod. lia. Qed.

Lemma byte_eqb_eq x y : Byte.eqb x y = true <-> x = y.
Proof. split; [apply Byte.byte_dec_bl | apply Byte.byte_dec_lb]. Qed.

Lemma beqb_eq a b : beqb a b = true <-> a = b.
Proof.
  revert b; induction a as [|x a IH]; intros [|y b]; simpl; split; try congruence; auto.
  - rewrite andb_true_iff, byte_eqb_eq, IH. intros [-> ->]; auto.
  - intros [= -> ->]. rewrite andb_true_iff, byte_eqb_eq, IH. auto.
Qed.

Lemma beqb_refl a : beqb a a = true.
Proof. now apply beqb_eq. Qed.

Lemma beqb_neq a b : beqb a b = false <-> a <> b.
Proof. rewrite <- beqb_eq. destruct (beqb a b); split; congruence. Qed.

Lemma len_nil {A} : len (@nil A) = 0.
Proof. reflexivity. Qed.
Lemma len_cons {A} (x : A) l : len (x :: l) = 1 + len l.
Proof. unfold len; simpl length; lia. Qed.
Lemma len_app {A} (l m : list A) : len (l ++ m) = len l + len m.
Proof. unfold len. rewrite app_length. lia. Qed.
Lemma len_0 {A} (l : list A) : len l = 0 -> l = [].
Proof. destruct l; auto. rewrite len_cons. lia. Qed.
Lemma len_map {A B} (f : A -> B) l : len (map f l) = len l.
Proof. unfold len. now rewrite map_length. Qed.

Lemma be_length n u : List.length (be n u) = n.
Proof. induction n; simpl; auto. Qed.
Lemma len_be n u : len (be n u) = N.of_nat n.
Proof. unfold len. now rewrite be_length. Qed.

Lemma unbe_from_app acc a b : unbe_from acc (a ++ b) = unbe_from (unbe_from acc a) b.
Proof. unfold unbe_from. apply fold_left_app. Qed.

Lemma unbe_from_shift acc l :
  unbe_from acc l = acc * 256 ^ len l + unbe l.
Proof.
  unfold unbe. revert acc. induction l as [|b l IH]; intros acc.
  - unfold unbe_from; simpl. rewrite N.mul_1_r, N.add_0_r. auto.
  - change (unbe_from acc (b :: l)) with (unbe_from (acc * 256 + bN b) l).
    change (unbe_from 0 (b :: l)) with (unbe_from (0 * 256 + bN b) l).
    rewrite IH, (IH (0 * 256 + bN b)), len_cons, N.pow_add_r. change (256 ^ 1) with 256. lia.
Qed.

Lemma unbe_lt l : unbe l < 256 ^ len l.
Proof.
  induction l as [|b l IH]; [now vm_compute|].
  unfold unbe. change (unbe_from 0 (b :: l)) with (unbe_from (0 * 256 + bN b) l).
  rewrite unbe_from_shift, len_cons, N.pow_add_r. change (256 ^ 1) with 256.
  pose proof (bN_lt b). nia.
Qed.

Lemma unbe_cons b l : unbe (b :: l) = bN b * 256 ^ len l + unbe l.
Proof.
  unfold unbe at 1. change (unbe_from 0 (b :: l)) with (unbe_from (0 * 256 + bN b) l).
  rewrite unbe_from_shift. lia.
Qed.

Lemma unbe_app a b : unbe (a ++ b) = unbe a * 256 ^ len b + unbe b.
Proof. unfold unbe at 1. rewrite unbe_from_app. apply unbe_from_shift. Qed.

Lemma pow_256 n : 256 ^ n = 2 ^ (8 * n).
Proof. change 256 with (2 ^ 8). now rewrite <- N.pow_mul_r. Qed.

Lemma unbe_be n u : unbe (be n u) = u mod 256 ^ N.of_nat n.
Proof.
  induction n as [|n IH].
  - change (256 ^ N.of_nat 0) with 1. rewrite N.mod_1_r. reflexivity.
  - cbn [be]. rewrite unbe_cons, len_be, IH, bN_b8.
    rewrite Nat2N.inj_succ, N.pow_succ_r', N.shiftr_div_pow2.
    rewrite (pow_256 (N.of_nat n)). set (p := 2 ^ (8 * N.of_nat n)).
    assert (p <> 0) by (apply N.pow_nonzero; lia).
    rewrite (N.mul_comm 256), N.mod_mul_r by (auto; lia). ring.
Qed.

Lemma unbe_be_small n u : u < 256 ^ N.of_nat n -> unbe (be n u) = u.
Proof. intros H. rewrite unbe_be. now apply N.mod_small. Qed.

Lemma unbe_inj a b : len a = len b -> unbe a = unbe b -> a = b.
Proof.
  revert b; induction a as [|x a IH]; intros [|y b] Hl H; auto.
  - rewrite len_cons, len_nil in Hl; lia.
  - rewrite len_cons, len_nil in Hl; lia.
  - rewrite !len_cons in Hl. assert (Hl' : len a = len b) by lia.
    rewrite !unbe_cons, Hl' in H.
    pose proof (unbe_lt a). pose proof (unbe_lt b). rewrite Hl' in *.
    assert (bN x = bN y) by nia.
    f_equal; [now apply bN_inj|]. apply IH; auto. nia.
Qed.

Lemma be_unbe l : be (List.length l) (unbe l) = l.
Proof.
  apply unbe_inj.
  - unfold len. now rewrite be_length.
  - apply unbe_be_small. apply unbe_lt.
Qed.

Lemma be_inj n u v : u < 256 ^ N.of_nat n -> v < 256 ^ N.of_nat n -> be n u = be n v -> u = v.
Proof.
  intros Hu Hv H. rewrite <- (unbe_be_small n u Hu), <- (unbe_be_small n v Hv). now f_equal.
Qed.

(** Splitting a list at a length ([firstn]/[skipn]). *)
Lemma firstn_app_len {A} (a b : list A) : firstn (List.length a) (a ++ b) = a.
Proof. rewrite firstn_app, Nat.sub_diag, firstn_all. simpl. apply app_nil_r. Qed.
Lemma skipn_app_len {A} (a b : list A) : skipn (List.length a) (a ++ b) = b.
Proof. rewrite skipn_app, Nat.sub_diag, skipn_all. reflexivity. Qed.
Lemma firstn_app_n {A} n (a b : list A) : n = List.length a -> firstn n (a ++ b) = a.
Proof. intros ->. apply firstn_app_len. Qed.
Lemma skipn_app_n {A} n (a b : list A) : n = List.length a -> skipn n (a ++ b) = b.
Proof. intros ->. apply skipn_app_len. Qed.

Lemma Ok_inj {A} (a b : A) : Ok a = Ok b -> a = b.
Proof. congruence. Qed.

Lemma bind_Ok {A B} (x : res A) (f : A -> res B) b :
  bind x f = Ok b -> exists a, x = Ok a /\ f a = Ok b.
Proof. destruct x; simpl; intros H; try discriminate. eauto. Qed.

Tactic Notation "inv_bind" hyp(H) "as" simple_intropattern(p) ident(H1) :=
  apply bind_Ok in H; destruct H as (p & H1 & H).
Ltac inv_ok H := apply Ok_inj in H; try (injection H; clear H; intros); subst.
