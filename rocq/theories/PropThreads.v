(** Property C72: goroutines that call [Write] on one connection do what the same calls do one after another, however they are interleaved; a [Read] that answers a
    KeyUpdate, or a [SendKeyUpdate], beside a [Write] can make two records with one nonce under one key. *)
From Verif Require Import Base Frame Record RecordSpec RecordProofs RecordProofs2 Threads ThreadSpec.

Lemma writeRecord_seal l pt : let i := r_cipher (l_core l) in let c := get_cs (l_core l) i in
  writeRecord l pt = match sealRecord (l_core l) c (combineSeq c (r_datagram (l_core l))) pt with
                     | Ok record => if 2 ^ 48 - 1 <=? c_seq c then (l, Panic) else (put_record (with_core l (set_cs (l_core l) i (set_seq c (c_seq c + 1)))) record, Ok tt)
                     | Err e => (l, Err e) | Panic => (l, Panic) | Fuel => (l, Fuel)
                     end.
Proof.
  cbv zeta. unfold writeRecord, writeRecordWithPadding, protect, sealRecord, incrementSequenceNumber, set_seq. set (c := get_cs (l_core l) (r_cipher (l_core l))). cbn [Nat.ltb Nat.leb].
  destruct (c_aead c) as [k|] eqn:Ka; cbn [bind].
  - destruct (recordHeader _ _ _ _ _) as [h|e| |]; cbn [bind]; try reflexivity. destruct (encrypt _ _ _ _ _ _ _) as [ct|e| |]; cbn [bind]; try reflexivity.
    destruct (maxFragmentLen <? len ct); [reflexivity|]. destruct (2 ^ 48 - 1 <=? c_seq c); reflexivity.
  - destruct (recordHeader _ _ _ _ _) as [h|e| |]; cbn [bind]; try reflexivity.
    destruct (maxFragmentLen <? len (p_fragment pt)); [reflexivity|]. destruct (2 ^ 48 - 1 <=? c_seq c); reflexivity.
Qed.

(** What a goroutine that holds the lock has done, and what it will have done. *)
Definition partial (target : rlayer) (l : rlayer) (ops : list op) (p : pc) : Prop :=
  let i := r_cipher (l_core l) in let c := get_cs (l_core l) i in
  match p with
  | AtStart => run_ops l ops = target
  | HasCounted record => run_ops (put_record l record) (tl ops) = target /\ exists pt, hd_error ops = Some (BRecord pt)
  | _ => run_ops l ops = target /\ exists pt, hd_error ops = Some (BRecord pt) /\
      match p with
      | HasCipher j => j = i
      | HasSeq j seq => j = i /\ seq = combineSeq c (r_datagram (l_core l))
      | HasRecord j record => j = i /\ sealRecord (l_core l) c (combineSeq c (r_datagram (l_core l))) pt = Ok record
      | HasCount j v record => j = i /\ sealRecord (l_core l) c (combineSeq c (r_datagram (l_core l))) pt = Ok record /\ v = c_seq c /\ (2 ^ 48 - 1 <=? v) = false
      | _ => True
      end
  end.
Lemma partial_step target l ops p l' ops' p' : ops <> [] -> partial target l ops p -> op_step l ops p = (l', (ops', p')) -> partial target l' ops' p'.
Proof.
  intros Ne H S. destruct ops as [|[pt|e k iv] rest]; [congruence| |].
  - cbn [op_step] in S. destruct p; cbn [partial hd_error tl] in H.
    + injection S as <- <- <-. cbn [partial hd_error]. eauto.
    + destruct H as (H & pt' & Hd & ->). injection S as <- <- <-. cbn [partial hd_error]. eauto.
    + destruct H as (H & pt' & Hd & -> & ->). injection Hd as <-. cbn [run_ops] in H. rewrite writeRecord_seal in H.
      destruct (sealRecord _ _ _ pt) as [b|e| |] eqn:Se; injection S as <- <- <-; cbn [partial hd_error]; [|exact H..].
      split; [cbn [run_ops]; now rewrite writeRecord_seal, Se|]. eauto 6.
    + destruct H as (H & pt' & Hd & -> & Se). injection Hd as <-. destruct (2 ^ 48 - 1 <=? c_seq (get_cs (l_core l) (r_cipher (l_core l)))) eqn:W; injection S as <- <- <-; cbn [partial hd_error].
      * cbn [run_ops] in H. rewrite writeRecord_seal, Se, W in H. exact H.
      * eauto 10.
    + destruct H as (H & pt' & Hd & -> & Se & -> & W). injection Hd as <-. injection S as <- <- <-. cbn [partial hd_error tl]. split; [|eauto].
      cbn [run_ops] in H. rewrite writeRecord_seal, Se, W in H. exact H.
    + destruct H as (H & _). injection S as <- <- <-. exact H.
  - cbn [op_step] in S. destruct p; cbn [partial hd_error] in H; [|destruct H as (_ & pt & Hd & _); discriminate Hd..|destruct H as (_ & pt & Hd); discriminate Hd].
    injection S as <- <- <-. exact H.
Qed.
Lemma run_ops_out ops : forall l, exists more, l_out (run_ops l ops) = l_out l ++ more.
Proof.
  induction ops as [|[pt|e k iv] ops IH]; intros l; cbn [run_ops].
  - exists []. now rewrite app_nil_r.
  - rewrite writeRecord_seal. destruct (sealRecord _ _ _ pt) as [b|e| |]; try (exists []; now rewrite app_nil_r).
    destruct (2 ^ 48 - 1 <=? _); [exists []; now rewrite app_nil_r|]. destruct (IH (put_record (with_core l (set_cs (l_core l) (r_cipher (l_core l)) (set_seq (get_cs (l_core l) (r_cipher (l_core l))) (c_seq (get_cs (l_core l) (r_cipher (l_core l))) + 1)))) b)) as (m & ->).
    exists (b :: m). cbn [put_record with_core l_out]. now rewrite <- app_assoc.
  - exact (IH (with_core l (rekey (l_core l) e k iv))).
Qed.
Lemma partial_out target l ops p : partial target l ops p -> exists more, l_out target = l_out l ++ more.
Proof.
  intros H. destruct p; cbn [partial] in H; [subst; apply run_ops_out|destruct H as [<- _]; try apply run_ops_out..].
  destruct (run_ops_out (tl ops) (put_record l record)) as (m & ->). exists (record :: m). cbn [put_record l_out]. now rewrite <- app_assoc.
Qed.

(** ** All interleavings *)

Lemma nth_set_nth {A} (l : list A) : forall i j x d, (i < List.length l)%nat -> nth j (set_nth i x l) d = if Nat.eqb i j then x else nth j l d.
Proof. induction l as [|a l IH]; intros [|i] [|j] x d L; cbn [set_nth nth List.length Nat.eqb] in *; try lia; try reflexivity. apply IH. lia. Qed.
Lemma set_nth_length {A} (l : list A) : forall i x, List.length (set_nth i x l) = List.length l.
Proof. induction l as [|a l IH]; intros [|i] x; cbn [set_nth List.length]; auto. Qed.
Lemma calls_app t a b : calls_of t (a ++ b) = calls_of t a ++ calls_of t b.
Proof. unfold calls_of. now rewrite filter_app, map_app. Qed.
Lemma serial_app l a b : serial l (a ++ b) = serial (serial l a) b.
Proof. apply fold_left_app. Qed.

(** A goroutine that is not in a call, or in one that leaves the layer alone. *)
Definition quiet (h : thread) : Prop := th_now h = None \/ exists p, th_now h = Some (false, [], p).
(** [order]: the calls that have started, in that order. *)
Definition inv (l : rlayer) (calls : list (list gocall)) (order : list (nat * gocall)) (s : shared) : Prop :=
  List.length (sh_threads s) = List.length calls /\ takes calls order (fun t => th_next (get_th s t)) /\
  match sh_lock s with
  | None => (forall t, quiet (get_th s t)) /\ sh_layer s = serial l (map snd order)
  | Some t => (t < List.length calls)%nat /\ (forall u, u <> t -> quiet (get_th s u)) /\ exists ops p, th_now (get_th s t) = Some (true, ops, p) /\ partial (serial l (map snd order)) (sh_layer s) ops p
  end.
Lemma get_set s t h u la lo : (t < List.length (sh_threads s))%nat -> get_th (mkSh la lo (set_th s t h)) u = if Nat.eqb t u then h else get_th s u.
Proof. intros L. unfold get_th, set_th. cbn [sh_threads]. now apply nth_set_nth. Qed.
Lemma get_in s t : th_now (get_th s t) <> None \/ th_next (get_th s t) <> [] -> (t < List.length (sh_threads s))%nat.
Proof.
  intros H. destruct (Nat.lt_ge_cases t (List.length (sh_threads s))) as [L|L]; [exact L|]. unfold get_th in H. rewrite nth_overflow in H by exact L. cbn in H. destruct H; congruence.
Qed.
Lemma set_th_length s t h : List.length (set_th s t h) = List.length (sh_threads s).
Proof. apply set_nth_length. Qed.
Lemma step_inv l calls order s t : orderly calls -> inv l calls order s -> exists order', inv l calls order' (step t s).
Proof.
  intros Lk (Ln & Tk & I). unfold step. destruct (th_now (get_th s t)) as [[[lk ops] p]|] eqn:Nw.
  - assert (t < List.length (sh_threads s))%nat as Lt by (apply get_in; left; congruence). exists order.
    assert (quiet (get_th s t) -> lk = false /\ ops = []) as Qt by (unfold quiet; rewrite Nw; intros [K|(q & K)]; [discriminate K|injection K as -> -> _; auto]).
    assert (forall la lo h, th_next h = th_next (get_th s t) -> takes calls order (fun v => th_next (get_th (mkSh la lo (set_th s t h)) v))) as Tk' by (intros la lo h Hh v; rewrite get_set by exact Lt; rewrite <- (Tk v); destruct (Nat.eqb_spec t v) as [<-|]; [now rewrite Hh|reflexivity]).
    assert (forall la lo v, quiet (get_th s v) -> quiet (get_th (mkSh la lo (set_th s t (mkTh None (th_next (get_th s t))))) v)) as Qk by (intros la lo v K; rewrite get_set by exact Lt; destruct (Nat.eqb t v); [left; reflexivity|exact K]).
    destruct (sh_lock s) as [u|] eqn:Lo.
    + destruct I as (Lu & Oth & ops0 & p0 & Nu & Pa). destruct (Nat.eq_dec t u) as [->|Ne].
      * rewrite Nw in Nu. injection Nu as -> <- <-. destruct ops as [|o ops].
        -- assert (sh_layer s = serial l (map snd order)) as El by (destruct p; cbn [partial hd_error] in Pa; [exact Pa|destruct Pa as (_ & pt & Hd & _); discriminate Hd..|destruct Pa as (_ & pt & Hd); discriminate Hd]).
           split; [cbn [sh_threads]; now rewrite set_th_length|]. split; [now apply Tk'|]. cbn [sh_lock sh_layer]. split; [|exact El].
           intros v. rewrite get_set by exact Lt. destruct (Nat.eqb_spec u v) as [->|N]; [left; reflexivity|]. apply Oth. congruence.
        -- destruct (op_step (sh_layer s) (o :: ops) p) as [l' [ops' p']] eqn:St.
           split; [cbn [sh_threads]; now rewrite set_th_length|]. split; [now apply Tk'|]. cbn [sh_lock sh_layer]. split; [exact Lu|]. split.
           ++ intros v N. rewrite get_set by exact Lt. destruct (Nat.eqb_spec u v) as [->|_]; [congruence|]. now apply Oth.
           ++ exists ops', p'. rewrite get_set by exact Lt. rewrite Nat.eqb_refl. split; [reflexivity|]. eapply partial_step; [|exact Pa|exact St]. discriminate.
      * destruct (Qt (Oth _ Ne)) as [-> ->]. split; [cbn [sh_threads]; now rewrite set_th_length|]. split; [now apply Tk'|]. cbn [sh_lock sh_layer]. split; [exact Lu|]. split.
        -- intros v N. apply Qk. now apply Oth.
        -- exists ops0, p0. rewrite get_set by exact Lt. destruct (Nat.eqb_spec t u) as [|_]; [congruence|]. auto.
    + destruct I as [Oth El]. destruct (Qt (Oth t)) as [-> ->]. split; [cbn [sh_threads]; now rewrite set_th_length|]. split; [now apply Tk'|]. cbn [sh_lock sh_layer]. split; [|exact El]. intros v. apply Qk, Oth.
  - destruct (th_next (get_th s t)) as [|g next] eqn:Nx; [exists order; split; [exact Ln|split; [exact Tk|exact I]]|].
    assert (t < List.length (sh_threads s))%nat as Lt by (apply get_in; right; congruence).
    assert (g_locked g = true \/ g_ops g = []) as Lg.
    { pose proof (Tk t) as K. cbv beta in K. rewrite Nx in K. assert (In g (nth t calls [])) as Ig by (rewrite <- K; apply in_or_app; right; left; reflexivity).
      assert (Forall (fun g => g_locked g = true \/ g_ops g = []) (nth t calls [])) as Fa by (apply Forall_nth'; [exact Lk|lia]). rewrite Forall_forall in Fa. now apply Fa. }
    assert (forall la lo h, th_next h = next -> takes calls (order ++ [(t, g)]) (fun v => th_next (get_th (mkSh la lo (set_th s t h)) v))) as Tk'.
    { intros la lo h Hh v. rewrite get_set by exact Lt. rewrite calls_app, <- app_assoc, <- (Tk v). f_equal. unfold calls_of. cbn [filter fst]. rewrite (Nat.eqb_sym v t). destruct (Nat.eqb_spec t v) as [->|]; [|reflexivity]. now rewrite Nx, Hh. }
    destruct (g_locked g) eqn:Lg'.
    + destruct (sh_lock s) as [u|] eqn:Lo; [exists order; split; [exact Ln|split; [exact Tk|]]; rewrite Lo; exact I|].
      destruct I as [Oth El]. exists (order ++ [(t, g)]).
      split; [cbn [sh_threads]; now rewrite set_th_length|]. split; [now apply Tk'|]. cbn [sh_lock sh_layer]. split; [lia|]. split.
      * intros v N. rewrite get_set by exact Lt. destruct (Nat.eqb_spec t v) as [->|_]; [congruence|]. apply Oth.
      * exists (g_ops g), AtStart. rewrite get_set by exact Lt. rewrite Nat.eqb_refl. split; [reflexivity|]. cbn [partial]. rewrite map_app, serial_app, <- El. reflexivity.
    + destruct Lg as [Lg|Lg]; [discriminate Lg|]. exists (order ++ [(t, g)]).
      assert (serial l (map snd (order ++ [(t, g)])) = serial l (map snd order)) as Es by (rewrite map_app, serial_app; cbn [map snd serial fold_left]; rewrite Lg; reflexivity).
      assert (forall la lo v, quiet (get_th s v) -> quiet (get_th (mkSh la lo (set_th s t (mkTh (Some (false, g_ops g, AtStart)) next))) v)) as Qk.
      { intros la lo v K. rewrite get_set by exact Lt. destruct (Nat.eqb t v); [|exact K]. right. exists AtStart. cbn [th_now]. now rewrite Lg. }
      split; [cbn [sh_threads]; now rewrite set_th_length|]. split; [now apply Tk'|]. cbn [sh_lock sh_layer]. rewrite Es. destruct (sh_lock s) as [u|].
      * destruct I as (Lu & Oth & ops & p & Nu & Pa). split; [exact Lu|]. split; [intros v N; apply Qk; now apply Oth|]. exists ops, p. rewrite get_set by exact Lt. destruct (Nat.eqb_spec t u) as [->|_]; [congruence|]. auto.
      * destruct I as [Oth El]. split; [|exact El]. intros v. apply Qk, Oth.
Qed.
Lemma run_inv l calls schedule : forall order s, orderly calls -> inv l calls order s -> exists order', inv l calls order' (run schedule s).
Proof.
  induction schedule as [|t schedule IH]; intros order s Lk H; [eauto|]. cbn [run]. destruct (step_inv _ _ _ _ t Lk H) as (order' & H'). eauto.
Qed.
Lemma get_start l calls t : get_th (start l calls) t = mkTh None (nth t calls []).
Proof. unfold get_th, start. cbn [sh_threads]. change no_thread with (mkTh None []). apply map_nth. Qed.
Lemma start_inv l calls : inv l calls [] (start l calls).
Proof.
  split; [apply map_length|]. split; [intros t; now rewrite get_start|]. split; [|reflexivity]. intros t. left. now rewrite get_start.
Qed.
Lemma interleave l calls schedule : orderly calls -> let s := run schedule (start l calls) in
  exists order, takes calls order (fun t => th_next (get_th s t)) /\ (exists more, l_out (serial l (map snd order)) = l_out (sh_layer s) ++ more) /\
    ((forall t, th_now (get_th s t) = None) -> sh_layer s = serial l (map snd order)).
Proof.
  intros Lk s. destruct (run_inv l calls schedule _ _ Lk (start_inv l calls)) as (order & _ & Tk & I). fold s in Tk, I. exists order. split; [exact Tk|].
  destruct (sh_lock s) as [t|].
  - destruct I as (_ & _ & ops & p & Nw & Pa). split; [exact (partial_out _ _ _ _ Pa)|]. intros K. rewrite K in Nw. discriminate Nw.
  - destruct I as [_ El]. split; [exists []; now rewrite app_nil_r, El|]. intros _. exact El.
Qed.
(** C72. Calls that hold the lock or leave the layer alone do what they do one after another in some order: all the time the wire is as far as theirs, and when no call is going on the layer is as theirs. *)
Theorem C72_serial : forall l calls schedule, orderly calls -> let s := run schedule (start l calls) in
  exists order, takes calls order (fun t => th_next (get_th s t)) /\ (exists more, l_out (serial l (map snd order)) = l_out (sh_layer s) ++ more) /\
    ((forall t, th_now (get_th s t) = None) -> sh_layer s = serial l (map snd order)).
Proof. exact interleave. Qed.
Print Assumptions C72_serial.

(** ** Nonces *)

(** The records [news] have come after those of [base], under one key. *)
Definition grown (nonce_of : bytes -> bytes) (k : aead) (iv : bytes) (base news : list bytes) (l : rlayer) : Prop :=
  let c := get_cs (l_core l) (r_cipher (l_core l)) in
  r_datagram (l_core l) = false /\ (r_cipher (l_core l) < List.length (r_heap (l_core l)))%nat /\ c_iv c = iv /\ c_aead c = Some k /\ c_seq c < 2 ^ 48 /\ l_out l = base ++ news /\
  Forall (fun b => exists s, s < c_seq c /\ computeNonce iv s = Ok (nonce_of (skipn 5 b))) news /\ NoDup (nonces nonce_of news).
Lemma seal_nonce nonce_of k r c seq pt b : reveals nonce_of k -> r_datagram r = false -> c_aead c = Some k -> sealRecord r c seq pt = Ok b -> computeNonce (c_iv c) seq = Ok (nonce_of (skipn 5 b)).
Proof.
  intros Rv Dg Ka H. unfold sealRecord in H. rewrite Ka in H. inv_bind H as p Hp. inv_bind Hp as hdr Hh. inv_bind Hp as ct Hc. inv_ok Hp. cbv iota beta in H. destruct (maxFragmentLen <? len ct); [discriminate|]. inv_ok H.
  pose proof (recordHeader_len _ _ _ _ _ _ Hh) as Hl. rewrite Dg in Hl. cbn [recordHeaderLen] in Hl. rewrite skipn_app_n by now rewrite Hl.
  unfold encrypt in Hc. destruct (r_dir r); [|discriminate]. inv_bind Hc as nn Hn. inv_ok Hc. now rewrite Rv, Hn.
Qed.
Definition only_records (g : gocall) : Prop := Forall (fun o => exists pt, o = BRecord pt) (g_ops g).
Lemma grown_ops nonce_of k iv base ops : reveals nonce_of k -> Forall (fun o => exists pt, o = BRecord pt) ops -> forall news l, grown nonce_of k iv base news l -> exists more, grown nonce_of k iv base (news ++ more) (run_ops l ops).
Proof.
  intros Rv. induction ops as [|o ops IH]; intros F news l G; [exists []; now rewrite app_nil_r|]. inversion F as [|? ? [pt ->] F']; subst. cbn [run_ops]. rewrite writeRecord_seal.
  destruct (sealRecord _ _ _ pt) as [b|e| |] eqn:Se; try (exists []; now rewrite app_nil_r).
  destruct (N.leb_spec (2 ^ 48 - 1) (c_seq (get_cs (l_core l) (r_cipher (l_core l))))) as [W|W]; [exists []; now rewrite app_nil_r|].
  destruct G as (Dg & Hi & Iv & Ka & Lt & Ou & Fo & Nd). set (i := r_cipher (l_core l)) in *. set (c := get_cs (l_core l) i) in *.
  rewrite Dg in Se. cbn [combineSeq] in Se. pose proof (seal_nonce _ _ _ _ _ _ _ Rv Dg Ka Se) as Nc. rewrite Iv in Nc.
  assert (grown nonce_of k iv base (news ++ [b]) (put_record (with_core l (set_cs (l_core l) i (set_seq c (c_seq c + 1)))) b)) as G1.
  { unfold grown. cbn [put_record with_core l_core l_out set_cs r_datagram r_cipher r_heap]. fold i. unfold get_cs at 1 2 3 4. cbn [set_cs r_heap]. rewrite nth_set_nth, Nat.eqb_refl by exact Hi. rewrite set_nth_length. cbn [set_seq c_iv c_aead c_seq].
    split; [exact Dg|]. split; [exact Hi|]. split; [exact Iv|]. split; [exact Ka|]. split; [lia|]. split; [now rewrite Ou, <- app_assoc|]. split.
    - apply Forall_app. split; [|constructor; [exists (c_seq c); split; [lia|exact Nc]|constructor]]. eapply Forall_impl; [|exact Fo]. intros x (s & Ls & Hs). exists s. split; [lia|exact Hs].
    - unfold nonces in *. rewrite map_app. cbn [map]. apply NoDup_Add with (a := nonce_of (skipn 5 b)) (l := map (fun b => nonce_of (skipn 5 b)) news).
      { replace (map (fun b => nonce_of (skipn 5 b)) news) with (map (fun b => nonce_of (skipn 5 b)) news ++ []) at 1 by apply app_nil_r. apply Add_app. }
      split; [exact Nd|]. intros Hin. apply in_map_iff in Hin. destruct Hin as (x & Ex & Hx). rewrite Forall_forall in Fo. destruct (Fo x Hx) as (s & Ls & Hs). rewrite Ex in Hs.
      assert (s = c_seq c); [|lia]. eapply computeNonce_inj; [| |exact Hs|exact Nc]; eapply N.lt_trans with (m := 2 ^ 48); try reflexivity; lia. }
  destruct (IH F' _ _ G1) as (more & G2). exists (b :: more). rewrite <- app_assoc in G2. exact G2.
Qed.
Lemma grown_serial nonce_of k iv base calls : reveals nonce_of k -> Forall only_records calls -> forall news l, grown nonce_of k iv base news l -> exists more, grown nonce_of k iv base (news ++ more) (serial l calls).
Proof.
  intros Rv. induction calls as [|g calls IH]; intros F news l G; [exists []; now rewrite app_nil_r|]. inversion F as [|? ? Fg F']; subst. cbn [serial fold_left].
  destruct (grown_ops _ _ _ _ _ Rv Fg _ _ G) as (m1 & G1). destruct (IH F' _ _ G1) as (m2 & G2). exists (m1 ++ m2). rewrite app_assoc. exact G2.
Qed.
Lemma in_calls_of t g order : In (t, g) order -> In g (calls_of t order).
Proof. intros H. unfold calls_of. apply in_map_iff. exists (t, g). split; [reflexivity|]. apply filter_In. split; [exact H|]. apply Nat.eqb_refl. Qed.
Lemma write_only b : only_records (write_call b).
Proof. apply Forall_forall. intros o H. apply in_map_iff in H. destruct H as (f & <- & _). eauto. Qed.

Lemma nodup_front {A} (a b : list A) : NoDup (a ++ b) -> NoDup a.
Proof. induction a as [|x a IH]; intros H; [constructor|]. inversion H as [|? ? N H']; subst. constructor; [|auto]. intros K. apply N, in_or_app. now left. Qed.
(** Calls of [Write] by any number of goroutines, beside calls that leave the layer alone: no two of the records have one nonce. *)
Lemma writers_nonces nonce_of k l calls schedule : let c := get_cs (l_core l) (r_cipher (l_core l)) in
  full_duplex calls -> reveals nonce_of k -> r_datagram (l_core l) = false -> (r_cipher (l_core l) < List.length (r_heap (l_core l)))%nat -> c_aead c = Some k -> c_seq c < 2 ^ 48 ->
  exists news, l_out (sh_layer (run schedule (start l calls))) = l_out l ++ news /\ NoDup (nonces nonce_of news).
Proof.
  intros c Fd Rv Dg Hi Ka Lt.
  assert (orderly calls) as Lk by (eapply Forall_impl; [|exact Fd]; intros x Hx; eapply Forall_impl; [|exact Hx]; intros g [(b & ->)|Hg]; [now left|now right]).
  destruct (interleave l _ schedule Lk) as (order & Tk & (more & Pre) & _). set (s := run schedule _) in *.
  assert (Forall only_records (map snd order)) as Fo.
  { apply Forall_forall. intros g Hg. apply in_map_iff in Hg. destruct Hg as ([t g'] & <- & Hin). apply in_calls_of in Hin. cbn [snd]. pose proof (Tk t) as K. assert (In g' (nth t calls [])) as I1 by (rewrite <- K; apply in_or_app; now left).
    destruct (Nat.lt_ge_cases t (List.length calls)) as [Z|Z]; [|rewrite nth_overflow in I1 by exact Z; destruct I1].
    assert (Forall (fun g => (exists b, g = write_call b) \/ g_ops g = []) (nth t calls [])) as Fa by (apply Forall_nth'; assumption). rewrite Forall_forall in Fa. destruct (Fa _ I1) as [(b & ->)|Hg]; [apply write_only|]. unfold only_records. rewrite Hg. constructor. }
  assert (grown nonce_of k (c_iv c) (l_out l) [] l) as G0 by (repeat split; auto; [now rewrite app_nil_r|constructor]).
  destruct (grown_serial _ _ _ _ _ Rv Fo _ _ G0) as (all & _ & _ & _ & _ & _ & Ou & _ & Nd). cbn [List.app] in Ou, Nd. rewrite Pre in Ou.
  (* the wire is at least as long as it was *)
  assert (exists news, l_out (sh_layer s) = l_out l ++ news) as (news & En).
  { clear - s. unfold s. assert (forall sched st, exists news, l_out (sh_layer (run sched st)) = l_out (sh_layer st) ++ news) as K; [|exact (K schedule (start l calls))].
    clear. induction sched as [|t sched IH]; intros st; [exists []; now rewrite app_nil_r|]. cbn [run]. destruct (IH (step t st)) as (n1 & ->).
    assert (exists n0, l_out (sh_layer (step t st)) = l_out (sh_layer st) ++ n0) as (n0 & ->); [|exists (n0 ++ n1); now rewrite app_assoc].
    assert (exists n0, l_out (sh_layer st) = l_out (sh_layer st) ++ n0) as Z by (exists []; now rewrite app_nil_r).
    unfold step. destruct (th_now (get_th st t)) as [[[lk ops] p]|].
    - destruct ops as [|o ops]; [exact Z|]. destruct (op_step (sh_layer st) (o :: ops) p) as [l' [ops' p']] eqn:So. cbn [sh_layer].
      destruct o as [pt|e k iv]; cbn [op_step] in So; [|injection So as <- _ _; exact Z].
      destruct p; try (injection So as <- _ _; exact Z).
      + destruct (sealRecord _ _ _ _); injection So as <- _ _; exact Z.
      + destruct (2 ^ 48 - 1 <=? _); injection So as <- _ _; exact Z.
      + injection So as <- _ _. exists [record]. reflexivity.
    - destruct (th_next (get_th st t)) as [|g next]; [exact Z|]. destruct (g_locked g); [destruct (sh_lock st)|]; exact Z. }
  exists news. split; [exact En|]. rewrite En, <- app_assoc in Ou. apply app_inv_head in Ou. rewrite <- Ou in Nd. unfold nonces in *. rewrite map_app in Nd. exact (nodup_front _ _ Nd).
Qed.
Theorem C72_writers : forall nonce_of k l calls schedule, let c := get_cs (l_core l) (r_cipher (l_core l)) in
  full_duplex calls -> reveals nonce_of k -> r_datagram (l_core l) = false -> (r_cipher (l_core l) < List.length (r_heap (l_core l)))%nat -> c_aead c = Some k -> c_seq c < 2 ^ 48 ->
  exists news, l_out (sh_layer (run schedule (start l calls))) = l_out l ++ news /\ NoDup (nonces nonce_of news).
Proof. exact writers_nonces. Qed.
Print Assumptions C72_writers.

(** ** Progress *)

Definition pc_index (p : pc) : nat := match p with AtStart => 0 | HasCipher _ => 1 | HasSeq _ _ => 2 | HasRecord _ _ => 3 | HasCount _ _ _ => 4 | HasCounted _ => 5 end.
Definition ops_left (ops : list op) (p : pc) : nat := match ops with [] => 1 | _ => 1 + (6 * List.length ops - pc_index p) end.
Definition th_left (h : thread) : nat := match th_now h with None => 0 | Some (_, ops, p) => ops_left ops p end + list_sum (map (fun g => 6 * List.length (g_ops g) + 2)%nat (th_next h)).
Definition left (s : shared) : nat := list_sum (map th_left (sh_threads s)).
Lemma op_step_left l ops p l' ops' p' : ops <> [] -> op_step l ops p = (l', (ops', p')) -> (ops_left ops' p' < ops_left ops p)%nat.
Proof.
  intros Ne S. destruct ops as [|[pt|e k iv] rest]; [congruence| |]; cbn [op_step] in S.
  - assert (forall q, (6 * List.length (BRecord pt :: rest) - pc_index q >= 6 * List.length rest + 1)%nat) as K by (intros q; cbn [List.length]; destruct q; cbn [pc_index]; lia).
    assert (ops_left [] AtStart < ops_left (BRecord pt :: rest) p)%nat as Z by (specialize (K p); cbn [ops_left]; lia).
    destruct p; try (injection S as <- <- <-; cbn [ops_left pc_index List.length]; lia).
    + destruct (sealRecord _ _ _ pt); injection S as <- <- <-; try exact Z. cbn [ops_left pc_index List.length]; lia.
    + destruct (2 ^ 48 - 1 <=? _); injection S as <- <- <-; [exact Z|]. cbn [ops_left pc_index List.length]; lia.
    + injection S as <- <- <-. specialize (K (HasCounted record)). destruct rest; cbn [ops_left pc_index List.length] in *; lia.
  - injection S as <- <- <-. destruct rest, p; cbn [ops_left pc_index List.length]; lia.
Qed.
Lemma sum_set (l : list thread) : forall t h, (t < List.length l)%nat -> (th_left h < th_left (nth t l no_thread))%nat -> (list_sum (map th_left (set_nth t h l)) < list_sum (map th_left l))%nat.
Proof. induction l as [|a l IH]; intros [|t] h L H; cbn [List.length nth set_nth map list_sum fold_right] in *; try lia. unfold list_sum in IH. specialize (IH t h ltac:(lia) H). lia. Qed.
Lemma goes l calls order s : orderly calls -> inv l calls order s -> left s <> 0%nat -> exists t, (left (step t s) < left s)%nat.
Proof.
  intros Lk (Ln & Tk & I) Nz.
  assert (forall t g next, th_now (get_th s t) = None -> th_next (get_th s t) = g :: next -> sh_lock s = None -> (left (step t s) < left s)%nat) as Start.
  { intros t g next Nw Nx Lo. assert (t < List.length (sh_threads s))%nat as Lt by (apply get_in; right; congruence). unfold step. rewrite Nw, Nx, Lo.
    assert (forall la lo, left (mkSh la lo (set_th s t (mkTh (Some (g_locked g, g_ops g, AtStart)) next))) < left s)%nat as K; [|destruct (g_locked g); apply K].
    intros la lo. unfold left, set_th. cbn [sh_threads]. apply sum_set; [exact Lt|]. fold (get_th s t). unfold th_left. rewrite Nw, Nx. cbn [th_now th_next map list_sum fold_right]. destruct (g_ops g); cbn [ops_left pc_index List.length]; lia. }
  destruct (sh_lock s) as [t|] eqn:Lo.
  - destruct I as (Lt & _ & ops & p & Nw & _). exists t. rewrite <- Ln in Lt. unfold step. rewrite Nw. destruct ops as [|o ops].
    + unfold left, set_th. cbn [sh_threads]. apply sum_set; [exact Lt|]. fold (get_th s t). unfold th_left. rewrite Nw. cbn [th_now th_next ops_left]. lia.
    + destruct (op_step (sh_layer s) (o :: ops) p) as [l' [ops' p']] eqn:St. unfold left, set_th. cbn [sh_threads]. apply sum_set; [exact Lt|]. fold (get_th s t). unfold th_left. rewrite Nw. cbn [th_now th_next].
      apply op_step_left in St; [|discriminate]. lia.
  - destruct I as [Qu _].
    assert ((exists t, th_now (get_th s t) <> None) \/ forall t, th_now (get_th s t) = None) as [(t & Ht)|No].
    { assert (forall n, (exists t, th_now (get_th s t) <> None) \/ forall t, (t < n)%nat -> th_now (get_th s t) = None) as K.
      { induction n as [|n [E|F]]; [right; intros t Z; lia|now left|]. destruct (th_now (get_th s n)) eqn:Nn; [left; exists n; congruence|]. right. intros t Z. destruct (Nat.eq_dec t n) as [->|]; [exact Nn|]. apply F. lia. }
      destruct (K (List.length (sh_threads s))) as [E|F]; [now left|]. right. intros t. destruct (Nat.lt_ge_cases t (List.length (sh_threads s))) as [Z|Z]; [now apply F|]. unfold get_th. now rewrite nth_overflow. }
    { exists t. assert (t < List.length (sh_threads s))%nat as Lt by (apply get_in; now left). destruct (Qu t) as [Z|(p & Nw)]; [congruence|]. unfold step. rewrite Nw. unfold left, set_th. cbn [sh_threads]. apply sum_set; [exact Lt|]. fold (get_th s t). unfold th_left. rewrite Nw. cbn [th_now th_next ops_left]. lia. }
    assert (exists t, th_next (get_th s t) <> []) as (t & Ht).
    { unfold left in Nz. clear - Nz No. unfold get_th in *. destruct s as [la lo ths]. cbn [sh_threads] in *. induction ths as [|h ths IH]; [now elim Nz|]. destruct (th_next h) as [|g n] eqn:Nx.
      - assert (th_now h = None) as Nw by exact (No 0%nat). destruct IH as (t & Ht); [intros Z; apply Nz; cbn [map list_sum fold_right]; unfold th_left at 1; rewrite Nw, Nx; exact Z|intros t; exact (No (Datatypes.S t))|exists (Datatypes.S t); exact Ht].
      - exists 0%nat. cbn [nth]. congruence. }
    destruct (th_next (get_th s t)) as [|g next] eqn:Nx; [congruence|]. exists t. eapply Start; eauto.
Qed.
Lemma run_app a : forall b s, run (a ++ b) s = run b (run a s).
Proof. induction a as [|t a IH]; intros b s; [reflexivity|]. apply IH. Qed.
Lemma finishes l calls k : forall order s, orderly calls -> inv l calls order s -> (left s <= k)%nat -> exists more, left (run more s) = 0%nat.
Proof.
  induction k as [|k IH]; intros order s Lk H L; [exists []; cbn [run]; lia|]. destruct (Nat.eq_dec (left s) 0) as [Z|Nz]; [exists []; exact Z|].
  destruct (goes _ _ _ _ Lk H Nz) as (t & Lt). destruct (step_inv _ _ _ _ t Lk H) as (order' & H'). destruct (IH _ _ Lk H') as (more & M); [lia|]. exists (t :: more). exact M.
Qed.
Lemma left_none s : left s = 0%nat -> forall t, get_th s t = no_thread.
Proof.
  unfold left, get_th. destruct s as [la lo ths]. cbn [sh_threads]. induction ths as [|[nw nx] ths IH]; intros Z [|t]; try reflexivity; cbn [map list_sum fold_right nth] in *.
  - unfold th_left in Z at 1. cbn [th_now th_next] in Z. destruct nw as [[[lk ops] p]|]; [destruct ops; cbn [ops_left] in Z; lia|]. destruct nx; cbn [map list_sum fold_right] in Z; [reflexivity|lia].
  - apply IH. unfold list_sum. lia.
Qed.
(** From wherever a schedule has led, the goroutines can end all their calls; then the layer is that of all of them, one after another. *)
Lemma all_end : forall l calls schedule, orderly calls -> exists more, let s := run (schedule ++ more) (start l calls) in
  (forall t, get_th s t = no_thread) /\ exists order, (forall t, calls_of t order = nth t calls []) /\ sh_layer s = serial l (map snd order).
Proof.
  intros l calls schedule Lk. destruct (run_inv l calls schedule _ _ Lk (start_inv l calls)) as (order & H). destruct (finishes _ _ _ _ _ Lk H (le_n _)) as (more & Z). exists more. cbv zeta.
  destruct (interleave l calls (schedule ++ more) Lk) as (order' & Tk & _ & El). rewrite run_app in *. pose proof (left_none _ Z) as No. split; [exact No|]. exists order'. split.
  - intros t. rewrite <- (Tk t), No. symmetry. apply app_nil_r.
  - apply El. intros t. now rewrite No.
Qed.
Theorem C72_no_deadlock : forall l calls schedule, orderly calls -> exists more, let s := run (schedule ++ more) (start l calls) in
  (forall t, get_th s t = no_thread) /\ exists order, (forall t, calls_of t order = nth t calls []) /\ sh_layer s = serial l (map snd order).
Proof. exact all_end. Qed.
Print Assumptions C72_no_deadlock.

(** ** Exclusion *)

Definition in_locked (s : shared) (t : nat) : Prop := exists ops p, th_now (get_th s t) = Some (true, ops, p).
Lemma step_exclusive s t : (forall u, in_locked s u <-> sh_lock s = Some u) -> forall u, in_locked (step t s) u <-> sh_lock (step t s) = Some u.
Proof.
  intros H u. unfold step. destruct (th_now (get_th s t)) as [[[lk ops] p]|] eqn:Nw.
  - assert (t < List.length (sh_threads s))%nat as Lt by (apply get_in; left; congruence).
    assert (lk = true -> sh_lock s = Some t) as Ho by (intros ->; apply H; exists ops, p; exact Nw).
    assert (forall ops' p' la, in_locked (mkSh la (sh_lock s) (set_th s t (mkTh (Some (lk, ops', p')) (th_next (get_th s t))))) u <-> sh_lock s = Some u) as Keep.
    { intros ops' p' la. rewrite <- (H u). unfold in_locked. rewrite get_set by exact Lt. destruct (Nat.eqb_spec t u) as [<-|]; [|reflexivity]. rewrite Nw. cbn [th_now]. split; intros (a & b & [= -> _ _]); eauto. }
    destruct ops as [|o ops].
    + unfold in_locked. rewrite get_set by exact Lt. cbn [sh_lock]. destruct (Nat.eqb_spec t u) as [<-|Ne]; cbn [th_now].
      * split; [intros (a & b & K); discriminate K|]. destruct lk; [discriminate|]. intros K. apply H in K. destruct K as (a & b & K). rewrite Nw in K. discriminate K.
      * fold (in_locked s u). rewrite (H u). destruct lk; [|reflexivity]. rewrite (Ho eq_refl). split; [intros [= ->]; congruence|discriminate].
    + destruct (op_step (sh_layer s) (o :: ops) p) as [l' [ops' p']]. apply Keep.
  - destruct (th_next (get_th s t)) as [|g next] eqn:Nx; [apply H|]. assert (t < List.length (sh_threads s))%nat as Lt by (apply get_in; right; congruence).
    destruct (g_locked g) eqn:Lg; [destruct (sh_lock s) as [v|] eqn:Lo; [rewrite Lo; apply H|]|]; unfold in_locked; rewrite get_set by exact Lt; cbn [sh_lock]; (destruct (Nat.eqb_spec t u) as [<-|Ne]; cbn [th_now]).
    + split; [reflexivity|]. intros _. eauto.
    + fold (in_locked s u). rewrite (H u), ?Lo. split; [discriminate|]. intros [= <-]. congruence.
    + split; [intros (a & b & K); discriminate K|]. intros K. apply H in K. destruct K as (a & b & K). rewrite Nw in K. discriminate K.
    + apply H.
Qed.
Lemma run_exclusive schedule : forall s, (forall u, in_locked s u <-> sh_lock s = Some u) -> forall u, in_locked (run schedule s) u <-> sh_lock (run schedule s) = Some u.
Proof. induction schedule as [|t schedule IH]; intros s H; [exact H|]. cbn [run]. apply IH. intros u. now apply step_exclusive. Qed.
Lemma exclusive l calls schedule t u : let s := run schedule (start l calls) in in_locked s t -> in_locked s u -> t = u.
Proof.
  intros s A B. assert (forall v, in_locked s v <-> sh_lock s = Some v) as H.
  { apply run_exclusive. intros v. unfold in_locked. rewrite get_start. cbn [th_now start sh_lock]. split; [intros (a & b & K); discriminate K|discriminate]. }
  apply H in A, B. congruence.
Qed.
(** Beside calls of any kind, two goroutines are not both in calls that hold the lock. *)
Theorem C72_exclusion : forall l calls schedule t u, let s := run schedule (start l calls) in
  (exists ops p, th_now (get_th s t) = Some (true, ops, p)) -> (exists ops p, th_now (get_th s u) = Some (true, ops, p)) -> t = u.
Proof. exact exclusive. Qed.
Print Assumptions C72_exclusion.
