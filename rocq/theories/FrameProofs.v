(** The frame reader against a direct parse of the byte stream. *)
From Verif Require Import Base Frame.

(** ** Specification *)

(** Bytes received but not yet returned as part of a frame. *)
Definition pending (f : freader) : bytes :=
  match f_state f with FHdr => f_rem f | FBody => f_header f ++ f_rem f end.

(** Reachable readers. *)
Definition fr_ok (d : framing) (f : freader) : Prop :=
  f_off f = 0%nat /\ List.length (f_header f) = headerLen d /\ (0 < headerLen d)%nat /\
  (f_state f = FBody -> frameLen d (f_header f) = Ok (List.length (f_body f))).

(** The first frame of a byte string: [None] if it is not complete yet; otherwise the outcome and the rest.
    An announced length that is refused costs the header bytes. *)
Definition first_frame (d : framing) (data : bytes) : option (res (bytes * bytes) * bytes) :=
  if (List.length data <? headerLen d)%nat then None else
  let h := firstn (headerLen d) data in
  let r := skipn (headerLen d) data in
  match frameLen d h with
  | Ok n => if (List.length r <? n)%nat then None else Some (Ok (h, firstn n r), skipn n r)
  | Err e => Some (Err e, r)
  | Panic => Some (Panic, r)
  | Fuel => Some (Fuel, r)
  end.

(** ** Proofs *)

Lemma fr_ok_new d : (0 < headerLen d)%nat -> fr_ok d (newFrameReader d).
Proof. intros H. unfold fr_ok, newFrameReader; simpl. rewrite repeat_length. repeat split; auto. discriminate. Qed.

Lemma fr_ok_add d f c : fr_ok d f -> fr_ok d (addChunk f c).
Proof. auto. Qed.
Lemma pending_add f c : pending (addChunk f c) = pending f ++ c.
Proof. unfold pending, addChunk; simpl. destruct (f_state f); auto. now rewrite app_assoc. Qed.

Definition lawful_framing (d : framing) : Prop :=
  forall h, List.length h = headerLen d -> exists r, frameLen d h = r /\ r <> Panic /\ r <> Fuel /\ r <> Err WouldBlock.

Lemma is_wb_spec e : is_wb e = true <-> e = WouldBlock.
Proof.
  unfold is_wb, WouldBlock. destruct e as [a| |]; try (split; discriminate).
  rewrite N.eqb_eq. split; [now intros -> | now intros [= ->]].
Qed.
Lemma is_wb_false e : e <> WouldBlock -> is_wb e = false.
Proof. intros H. destruct (is_wb e) eqn:E; auto. now apply is_wb_spec in E. Qed.

Lemma fill_full f : f_off f = 0%nat -> (List.length (working f) <= List.length (f_rem f))%nat ->
  fill f = mkFr (f_state f)
             (match f_state f with FHdr => firstn (List.length (working f)) (f_rem f) | FBody => f_header f end)
             (match f_state f with FHdr => f_body f | FBody => firstn (List.length (working f)) (f_rem f) end)
             (List.length (working f)) (skipn (List.length (working f)) (f_rem f)).
Proof.
  intros H0 Hl. unfold fill. rewrite H0, Nat.sub_0_r, Nat.min_l by auto. simpl firstn at 1. rewrite Nat.add_0_l.
  rewrite skipn_all, app_nil_r. unfold set_working. destruct (f_state f); reflexivity.
Qed.

Lemma process_spec d f : lawful_framing d -> fr_ok d f ->
  match first_frame d (pending f) with
  | None => exists f', process d f = (f', Err WouldBlock) /\ fr_ok d f' /\ pending f' = pending f /\ (0 < needed f')%nat
  | Some (r, rest) => exists f', process d f = (f', r) /\ fr_ok d f' /\ pending f' = rest
  end.
Proof.
  intros L F0. pose proof F0 as (H0 & Hh & Hp & Hb).
  assert (B : forall g fuel, fr_ok d g -> f_state g = FBody ->
     if (List.length (f_rem g) <? List.length (f_body g))%nat
     then process_loop (S fuel) d g = (g, Err WouldBlock) /\ (0 < needed g)%nat
     else exists g', process_loop (S fuel) d g = (g', Ok (f_header g, firstn (List.length (f_body g)) (f_rem g)))
            /\ fr_ok d g' /\ pending g' = skipn (List.length (f_body g)) (f_rem g)).
  { intros g fuel (G0 & Gh & Gp & Gb) Gs. cbn [process_loop].
    assert (En : needed g = (List.length (f_body g) - List.length (f_rem g))%nat)
      by (unfold needed, working; rewrite Gs, G0; lia).
    destruct (Nat.ltb_spec (List.length (f_rem g)) (List.length (f_body g))) as [Hlt|Hge].
    - destruct (Nat.eqb_spec (needed g) 0) as [E|E]; [lia|]. split; [reflexivity|lia].
    - destruct (Nat.eqb_spec (needed g) 0) as [E|E]; [|lia]. cbn [negb].
      rewrite fill_full by (auto; unfold working; rewrite Gs; lia). unfold working. rewrite Gs.
      cbn [f_off f_state f_body f_header f_rem].
      rewrite firstn_length, Nat.min_l, Nat.ltb_irrefl by lia.
      eexists. split; [reflexivity|]. split; [|reflexivity].
      unfold fr_ok; simpl. repeat split; auto. discriminate. }
  unfold process, first_frame, pending. change 3%nat with (S 2). remember 2%nat as k2 eqn:Ek. destruct (f_state f) eqn:Es.
  - (* header *)
    cbn [process_loop].
    assert (En : needed f = (headerLen d - List.length (f_rem f))%nat)
      by (unfold needed, working; rewrite Es, H0, Hh; lia).
    destruct (Nat.ltb_spec (List.length (f_rem f)) (headerLen d)) as [Hlt|Hge].
    + destruct (Nat.eqb_spec (needed f) 0) as [E|E]; [lia|]. cbn [negb].
      exists f. split; [reflexivity|]. split; [exact F0|]. split; [now rewrite Es|lia].
    + destruct (Nat.eqb_spec (needed f) 0) as [E|E]; [|lia]. cbn [negb].
      rewrite fill_full by (auto; unfold working; rewrite Es; lia). unfold working. rewrite Es, Hh.
      cbn [f_off f_state f_body f_header f_rem].
      assert (Ll : List.length (firstn (headerLen d) (f_rem f)) = headerLen d) by (rewrite firstn_length; lia).
      rewrite Ll, Nat.ltb_irrefl.
      destruct (L _ Ll) as (r & Er & Rp & Rf & Rw).
      rewrite Er. destruct r as [n|e| |]; try congruence.
      * match goal with |- context [process_loop k2 d ?g] => subst k2; pose proof (B g 1%nat) as Bg end.
        cbn [f_rem f_body f_header] in Bg. rewrite repeat_length in Bg.
        destruct (List.length (skipn (headerLen d) (f_rem f)) <? n)%nat.
        -- destruct Bg as [-> Bn]; [unfold fr_ok; cbn [f_off f_header f_state f_body]; rewrite repeat_length; now repeat split|auto|].
           eexists. split; [reflexivity|]. split; [unfold fr_ok; cbn [f_off f_header f_state f_body]; rewrite repeat_length; now repeat split|].
           split; [simpl; apply firstn_skipn | exact Bn].
        -- destruct Bg as (g' & E1 & E2 & E3); [unfold fr_ok; cbn [f_off f_header f_state f_body]; rewrite repeat_length; now repeat split|auto|].
           exists g'. auto.
      * eexists. split; [reflexivity|]. split; [|reflexivity].
        unfold fr_ok; simpl. repeat split; auto. discriminate.
  - (* body *)
    subst k2. pose proof (B f 2%nat) as Bg. rewrite app_length, Hh.
    destruct (Nat.ltb_spec (headerLen d + List.length (f_rem f)) (headerLen d)); [lia|].
    rewrite firstn_app_n, skipn_app_n by auto. rewrite (Hb eq_refl).
    destruct (List.length (f_rem f) <? List.length (f_body f))%nat.
    + destruct Bg as [-> Bn]; auto. exists f. rewrite Es. auto.
    + apply Bg; auto.
Qed.

Lemma first_frame_app d data r rest more :
  first_frame d data = Some (r, rest) -> first_frame d (data ++ more) = Some (r, rest ++ more).
Proof.
  unfold first_frame. destruct (Nat.ltb_spec (List.length data) (headerLen d)) as [|Hl]; [discriminate|].
  rewrite app_length. destruct (Nat.ltb_spec (List.length data + List.length more) (headerLen d)); [lia|].
  rewrite firstn_app, skipn_app. replace (headerLen d - List.length data)%nat with 0%nat by lia.
  simpl firstn at 1 2. rewrite app_nil_r. cbn [skipn].
  destruct (frameLen d (firstn (headerLen d) data)) as [n|e| |]; try (intros [= <- <-]; reflexivity).
  set (s := skipn (headerLen d) data).
  destruct (Nat.ltb_spec (List.length s) n) as [|Hs]; [discriminate|].
  intros [= <- <-]. rewrite app_length.
  destruct (Nat.ltb_spec (List.length s + List.length more) n); [lia|].
  rewrite firstn_app, skipn_app. replace (n - List.length s)%nat with 0%nat by lia. simpl. now rewrite app_nil_r.
Qed.

Lemma first_frame_shorter d data r rest : (0 < headerLen d)%nat ->
  first_frame d data = Some (r, rest) -> (List.length rest < List.length data)%nat.
Proof.
  intros Hp. unfold first_frame. destruct (Nat.ltb_spec (List.length data) (headerLen d)) as [|Hl]; [discriminate|].
  destruct (frameLen d _) as [n|e| |]; try (intros [= <- <-]; rewrite skipn_length; lia).
  destruct (_ <? _)%nat; [discriminate|]. intros [= <- <-]. rewrite !skipn_length. lia.
Qed.

(** [data_of]: the bytes the connection will still deliver. *)
Fixpoint data_of (conn : list rin) : bytes :=
  match conn with [] => [] | RBytes b :: c => b ++ data_of c | RError _ :: c => data_of c end.
Definition no_errors (conn : list rin) : Prop := Forall (fun r => exists b, r = RBytes b) conn.

(** Outcome of fetching one frame: the frame the pending and incoming bytes begin with, or would-block having
    lost nothing and used up either the whole input or an empty read. *)
Lemma nextFrame_spec d conn f : lawful_framing d -> fr_ok d f -> no_errors conn ->
  exists conn' f' r, nextFrame d conn f = (conn', f', r) /\ fr_ok d f' /\ no_errors conn' /\
    (List.length conn' <= List.length conn)%nat /\
    ((first_frame d (pending f ++ data_of conn) = Some (r, pending f' ++ data_of conn')) \/
     (r = Err WouldBlock /\ pending f' ++ data_of conn' = pending f ++ data_of conn /\
      (List.length conn' < List.length conn \/ (conn' = [] /\ first_frame d (pending f') = None))%nat)).
Proof.
  intros L. unfold nextFrame. 
  assert (G : forall n conn f, fr_ok d f -> no_errors conn -> 
     (List.length conn + (if (needed f =? 0)%nat then 1 else 0) < n)%nat ->
     exists conn' f' r, nextFrame_loop n d conn f = (conn', f', r) /\ fr_ok d f' /\ no_errors conn' /\
      (List.length conn' <= List.length conn)%nat /\
      ((first_frame d (pending f ++ data_of conn) = Some (r, pending f' ++ data_of conn')) \/
       (r = Err WouldBlock /\ pending f' ++ data_of conn' = pending f ++ data_of conn /\
        (List.length conn' < List.length conn \/ (conn' = [] /\ first_frame d (pending f') = None))%nat))).
  2:{ intros F E. apply G; auto. destruct (_ =? _)%nat; lia. }
  induction n as [|n IH]; intros cn fr F E Hn; [lia|]. cbn [nextFrame_loop].
  assert (S : forall cn fr, fr_ok d fr -> no_errors cn -> (List.length cn < n)%nat ->
     exists conn' f' r, 
      (match process d fr with
        | (f, Err e) => if is_wb e then nextFrame_loop n d cn f else (cn, f, Err e)
        | (f, r) => (cn, f, r)
        end) = (conn', f', r) /\ fr_ok d f' /\ no_errors conn' /\
      (List.length conn' <= List.length cn)%nat /\
      ((first_frame d (pending fr ++ data_of cn) = Some (r, pending f' ++ data_of conn')) \/
       (r = Err WouldBlock /\ pending f' ++ data_of conn' = pending fr ++ data_of cn /\
        (List.length conn' < List.length cn \/ (conn' = [] /\ first_frame d (pending f') = None))%nat))).
  { clear cn fr F E Hn. intros cn fr F E Hn. pose proof (process_spec d fr L F) as P.
    destruct (first_frame d (pending fr)) as [[r rest]|] eqn:Ef.
    - destruct P as (f' & E1 & F' & <-). rewrite E1.
      assert (Er : r <> Err WouldBlock).
      { unfold first_frame in Ef. destruct (Nat.ltb_spec (List.length (pending fr)) (headerLen d)) as [|Hl]; [discriminate|].
        destruct (L (firstn (headerLen d) (pending fr))) as (r0 & E0 & R1 & R2 & R3); [rewrite firstn_length; lia|].
        rewrite E0 in Ef. destruct r0; try congruence.
        destruct (_ <? _)%nat; [discriminate|]. injection Ef as <- _. discriminate. }
      exists cn, f', r. split.
      { destruct r as [|e| |]; auto. rewrite (is_wb_false e); auto. intros ->. auto. }
      split; [auto|]. split; [auto|]. split; [lia|]. left. now apply first_frame_app.
    - destruct P as (f' & E1 & F' & Pp & Hne). rewrite E1. cbn [is_wb WouldBlock]. rewrite N.eqb_refl.
      destruct (IH cn f' F' E) as (c2 & f2 & r & E2 & F2 & N2 & Hl & HH).
      { destruct (Nat.eqb_spec (needed f') 0); lia. }
      exists c2, f2, r. rewrite Pp in HH. auto. }
  destruct (Nat.ltb_spec 0 (needed fr)) as [Hne|Hz].
  - destruct (Nat.eqb_spec (needed fr) 0) as [|_]; [lia|].
    destruct cn as [|c cn].
    + exists [], fr, (Err WouldBlock). split; [reflexivity|]. split; [auto|]. split; [auto|]. split; [auto|]. right. split; [auto|]. split; [auto|]. right. split; [auto|].
      pose proof (process_spec d fr L F) as P. destruct (first_frame d (pending fr)) as [[r rest]|] eqn:Ef; auto.
      destruct P as (f' & P1 & _). exfalso. unfold process in P1. cbn [process_loop] in P1.
      destruct (Nat.eqb_spec (needed fr) 0) as [|_]; [lia|]. cbn [negb] in P1. injection P1 as <- <-.
      unfold first_frame in Ef. destruct (Nat.ltb_spec (List.length (pending fr)) (headerLen d)) as [|Hl]; [discriminate|].
      destruct (L (firstn (headerLen d) (pending fr))) as (r0 & E0 & R1 & R2 & R3); [rewrite firstn_length; lia|].
      rewrite E0 in Ef. destruct r0 as [k|e| |]; try congruence.
      destruct (_ <? _)%nat; discriminate.
    + inversion E as [|? ? [b ->] E']; subst. destruct b as [|b0 b].
      * exists cn, fr, (Err WouldBlock). split; [reflexivity|]. split; [auto|]. split; [auto|]. split; [simpl; lia|]. right. split; [auto|]. split; [auto|]. left. simpl. lia.
      * destruct (S cn (addChunk fr (b0 :: b)) (fr_ok_add _ _ _ F) E') as (c2 & f2 & r & E2 & F2 & N2 & Hl & HH).
        { simpl in Hn. lia. }
        exists c2, f2, r. rewrite pending_add, <- app_assoc in HH. split; [|split; [auto|split; [auto|split; [simpl; lia|]]]].
        -- rewrite <- E2. destruct (process d (addChunk fr (b0 :: b))) as [g [|e| |]]; auto.
        -- simpl data_of. destruct HH as [HH|(H1 & H2 & H3)]; [left; auto|right]. repeat split; auto. left. simpl.
           destruct H3 as [H3|[-> _]]; simpl; lia.
  - destruct (Nat.eqb_spec (needed fr) 0) as [_|]; [|lia].
    destruct (S cn fr F E) as (c2 & f2 & r & E2 & F2 & N2 & Hl & HH); [lia|].
    exists c2, f2, r. split; auto.
Qed.
