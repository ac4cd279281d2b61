(** The steps of a client that completes a handshake. *)
From Verif Require Import Base Frame Record Handshake Crypto CryptoSpec CryptoProofs Messages Pki Negotiation NegotiationSpec NegotiationProofs Machine MachineProofs Client Server StepProofs Conn ConnSpec ConnProofs RunSpec RunProofs TraceProofs SessionProofs SessionSpec HelloProofs.

(** ** Transcripts *)

Lemma transcript_sent H evs m : transcript H (evs ++ [Sent m]) = transcript H evs ++ hm_marshal m.
Proof. unfold transcript. rewrite fold_left_app. reflexivity. Qed.
Lemma transcript_received H evs m : is_retry m = false -> transcript H (evs ++ [Received m]) = transcript H evs ++ hm_marshal m.
Proof. intros R. unfold transcript. rewrite fold_left_app. cbn [fold_left note fst]. now rewrite R. Qed.
Lemma transcript_retry H evs hello m : is_type hello 1 -> is_retry m = true ->
  transcript H ((evs ++ [Sent hello]) ++ [Received m]) = synthetic (H (hm_marshal hello)) ++ hm_marshal m.
Proof. intros T R. unfold transcript. rewrite !fold_left_app. cbn [fold_left note fst snd]. rewrite R. unfold is_type in T. rewrite T. reflexivity. Qed.
Lemma transcript_sents H evs l : transcript H (evs ++ map Sent l) = transcript H evs ++ marshals l.
Proof.
  revert evs. induction l as [|m l IH]; intros evs; [now rewrite !app_nil_r|]. cbn [map].
  replace (evs ++ Sent m :: map Sent l) with ((evs ++ [Sent m]) ++ map Sent l) by now rewrite <- app_assoc.
  rewrite IH, transcript_sent, marshals_cons, app_assoc. reflexivity.
Qed.
Lemma message_hash_marshal d : hm_marshal (message_hash d) = synthetic d.
Proof. reflexivity. Qed.
Lemma not_retry m t : hm_type m = t -> Byte.eqb t htServerHello = false -> is_retry m = false.
Proof. intros H T. unfold is_retry. change (b8 2) with htServerHello. now rewrite H, T. Qed.

Definition same_suites (w : world) (c : config) (psks : cache) : Prop := (exists l, w_cfg w = set_suites c l) /\ w_psks w = psks.
Lemma set_suites_same c : set_suites c (cf_cipherSuites c) = c.
Proof. destruct c; reflexivity. Qed.
Lemma set_suites_twice c l l' : set_suites (set_suites c l) l' = set_suites c l'.
Proof. reflexivity. Qed.

Section Client.
Variables (Q : oracle -> Prop) (E : env) (cfg : config) (psks : cache).
Notation P := (v_prims E).
Notation X := (v_pki E).
Notation H ps := (digest P (s_hash ps)).

(** The code's start of the transcript is the transcript, for the suites that may still be chosen. *)
Definition begun (w : world) (evs : list event) (cookie : option bytes) (first hrr : option hmsg) : Prop :=
  client_retries cfg psks evs cookie /\ w_kind w = (cf_useDTLS cfg, cf_useDTLS cfg) /\ same_suites w (cfg_init cfg) (start_psks cfg psks) /\
  forall id ps, In id (cf_cipherSuites (w_cfg w)) -> cipherSuiteMap id = Some ps -> omarshal first ++ omarshal hrr = transcript (H ps) evs.
Definition at_start (evs : list event) (w : world) (st : cstart) : Prop :=
  begun w evs (st_cookie st) (st_first st) (st_hrr st) /\ st_serverName st = cf_serverName cfg /\ st_nextProtos st = cf_nextProtos cfg /\ st_params st = no_params /\
  (st_hrr st = None <-> evs = []) /\ (evs = [] -> w_cfg w = cfg_init cfg).
Definition at_wait_sh (evs : list event) (w : world) (ws : cwaitsh) : Prop :=
  exists evs0 o w0 w1 st acts, Q o /\ at_start evs0 w0 st /\ client_start P o w0 st = (w1, Ok (CWaitSH ws, acts, false)) /\ kept w1 w /\
    evs = evs0 ++ [Sent (ws_hello ws)].
(** A ServerHello was accepted. *)
Definition at_wait_ee (evs : list event) (w : world) (k : ckeys) : Prop :=
  exists evs0 o w0 w1 ws shm sh n acts, at_wait_sh evs0 w0 ws /\ hm_type shm = htServerHello /\ sh_unmarshal (hm_body shm) = Ok (sh, n) /\
    sh_random sh <> hrrRandomSentinel /\ In (sh_suite sh) (cf_cipherSuites (w_cfg w0)) /\
    client_server_hello P o w0 ws shm sh = (w1, Ok (CWaitEE k, acts, false)) /\ kept w1 w /\
    evs = evs0 ++ [Received shm].
Definition after_ee (evs : list event) (w : world) (s : hstate) : Prop :=
  exists evs0 o w0 w1 k eem acts, at_wait_ee evs0 w0 k /\ client_wait_ee P o w0 k eem = (w1, Ok (s, acts, false)) /\ kept w1 w /\
    evs = evs0 ++ [Received eem].
Definition at_wait_cert (evs : list event) (w : world) (k : ckeys) (cr : certRequest) : Prop :=
  exists evs0 w0 w1 k0 m, after_ee evs0 w0 (CWaitCertCR k0) /\ client_wait_cert_cr X w0 k0 m = (w1, Ok (CWaitCert k cr, [], false)) /\ kept w1 w /\
    evs = evs0 ++ [Received m].
Definition at_wait_cv (evs : list event) (w : world) (k : ckeys) (cert : certificate) (cr : option certRequest) : Prop :=
  exists evs0 w0 w1 m, kept w1 w /\ evs = evs0 ++ [Received m] /\
   ((exists k0, after_ee evs0 w0 (CWaitCertCR k0) /\ client_wait_cert_cr X w0 k0 m = (w1, Ok (CWaitCV k cert cr, [], false))) \/
    (exists cr0, at_wait_cert evs0 w0 k cr0 /\ client_wait_cert X w0 k cr0 m = (w1, Ok (CWaitCV k cert cr, [], false)))).
Definition at_wait_finished (evs : list event) (w : world) (s : hstate) : Prop :=
  after_ee evs w s \/
  exists evs0 o w0 w1 k cert cr m, Q o /\ at_wait_cv evs0 w0 k cert cr /\ client_wait_cv P X o w0 k cert cr m = (w1, Ok (s, [], false)) /\ kept w1 w /\
    evs = evs0 ++ [Received m].
Definition at_connected (evs : list event) (w : world) (c : connected) : Prop :=
  exists evs0 o w0 w1 k certs cr peer chains fin acts, at_wait_finished evs0 w0 (CWaitFinished k certs cr peer chains) /\
    client_wait_finished P X o w0 k certs cr peer chains fin = (w1, Ok (Connected c, acts, false)) /\ kept w1 w /\
    evs = evs0 ++ Received fin :: map Sent (sent_of acts).
Definition client_at (evs : list event) (w : world) (s : hstate) : Prop :=
  match s with
  | CStart st => at_start evs w st
  | CWaitSH ws => at_wait_sh evs w ws
  | CWaitEE k => at_wait_ee evs w k
  | CWaitCertCR _ => after_ee evs w s
  | CWaitCert k cr => at_wait_cert evs w k cr
  | CWaitCV k cert cr => at_wait_cv evs w k cert cr
  | CWaitFinished _ _ _ _ _ => at_wait_finished evs w s
  | Connected c => at_connected evs w c
  | _ => False
  end.

Lemma client_at_kept evs w w' s : client_at evs w s -> kept w w' -> client_at evs w' s.
Proof.
  intros A K. destruct s; cbn [client_at] in *; try exact A.
  - destruct A as ((F & Kw & [L Q'] & B) & R). destruct K as (_ & K1 & K2 & K3). split; [|rewrite K1; exact R]. split; [exact F|]. split; [congruence|]. split; [split; [destruct L as [l L]; exists l; congruence|congruence]|]. rewrite K1. exact B.
  - destruct A as (evs0 & o & w0 & w1 & st & acts & Qo & A & B & C & D). exists evs0, o, w0, w1, st, acts. repeat (split; [assumption|]). split; [eapply kept_trans; eauto|exact D].
  - destruct A as (evs0 & o & w0 & w1 & ws & shm & sh & n & acts & A & T & U & R & I & B & C & D). exists evs0, o, w0, w1, ws, shm, sh, n, acts.
    repeat (split; [assumption|]). split; [eapply kept_trans; eauto|exact D].
  - destruct A as (evs0 & o & w0 & w1 & k0 & eem & acts & A & B & C & D). exists evs0, o, w0, w1, k0, eem, acts. repeat (split; [assumption|]). split; [eapply kept_trans; eauto|exact D].
  - destruct A as (evs0 & w0 & w1 & k0 & m & A & B & C & D). exists evs0, w0, w1, k0, m. repeat (split; [assumption|]). split; [eapply kept_trans; eauto|exact D].
  - destruct A as (evs0 & w0 & w1 & m & C & D & A). exists evs0, w0, w1, m. split; [eapply kept_trans; eauto|]. split; assumption.
  - destruct A as [(evs0 & o & w0 & w1 & k0 & eem & acts & A & B & C & D)|(evs0 & o & w0 & w1 & k0 & cert & cr0 & m & Qo & A & B & C & D)].
    + left. exists evs0, o, w0, w1, k0, eem, acts. repeat (split; [assumption|]). split; [eapply kept_trans; eauto|exact D].
    + right. exists evs0, o, w0, w1, k0, cert, cr0, m. repeat (split; [assumption|]). split; [eapply kept_trans; eauto|exact D].
  - destruct A as (evs0 & o & w0 & w1 & k0 & certs & cr & peer & chains & fin & acts & A & B & C & D). exists evs0, o, w0, w1, k0, certs, cr, peer, chains, fin, acts.
    repeat (split; [assumption|]). split; [eapply kept_trans; eauto|exact D].
Qed.

Lemma frame_run {A} (f : world * res A) w0 w' r : all (frame w0) f -> f = (w', r) -> w_cfg w' = w_cfg w0 /\ w_psks w' = w_psks w0.
Proof. intros F ->. destruct F as (A1 & A2 & _). auto. Qed.
Lemma hrr_psks o w st hm sh w' r : client_hrr P o w st hm sh = (w', r) -> w_psks w' = w_psks w.
Proof.
  assert (forall A w1 (x : res A) (f : world -> A -> world * res outcome), (forall w2 a, w_psks (fst (f w2 a)) = w_psks w2) ->
    w_psks (fst (sbind (w1, x) f)) = w_psks w1) as B. { intros A w1 [a|e| |] f Hf; cbn [sbind]; auto. }
  intros Eq. change w' with (fst (w', r)). rewrite <- Eq. unfold client_hrr, done. etransitivity; [apply B|reflexivity].
  intros w2 exts. etransitivity; [apply B|reflexivity]. intros w3 [cookie|]; [|reflexivity]. destruct (negb _); [reflexivity|]. destruct (cipherSuiteMap _); reflexivity.
Qed.

Theorem client_path client evs s w : path Q E cfg psks client evs s w -> client = true -> client_at evs w s.
Proof.
  intros Pa. induction Pa as [o w w' s acts retry Qo Hc Hp Hk Cs|w Hw Hp Hk|client o fuel evs s w w' s' acts retry Pa IH Qo Nc N|client evs s w w' Pa IH K]; intros R; try discriminate.
  - pose proof Cs as Cs0. apply client_start_ok in Cs. destruct Cs as (ws & ch & sending & k & -> & -> & -> & _).
    cbn [client_at]. eexists [], o, w, w', _, _. split; [exact Qo|]. split; [|split; [exact Cs0|split; [apply kept_refl|destruct sending; reflexivity]]].
    unfold at_start, begun, start_of. cbn [st_first st_hrr st_serverName st_nextProtos st_params st_cookie]. rewrite Hc.
    split; [split; [constructor|split; [exact Hk|]; split; [split; [exists (cf_cipherSuites (cfg_init cfg)); now rewrite set_suites_same|exact Hp]|reflexivity]]|].
    split; [reflexivity|]. split; [reflexivity|]. split; [reflexivity|]. split; [tauto|reflexivity].
  - specialize (IH R). assert (forall w1 hm, hr_read fuel o w = (w1, Ok hm) -> client_at evs w1 s) as IHr.
    { intros w1 hm Hr. eapply client_at_kept; [exact IH|]. eapply kept_hr; eauto. }
    pose proof (client_follows _ _ _ _ _ _ _ _ Pa R) as [_ O].
    destruct s as [st|ws|k|k|k cr|k cert cr|k certs cr peer chains| | | | | | | | |c]; cbn [cstate_ok] in O; try contradiction; clear O; pose proof N as N1; cbn [next read_by] in *.
    + pose proof N as N0. apply client_start_ok in N. destruct N as (ws & ch & sending & k & -> & -> & -> & _).
      cbn [client_at] in *. eexists evs, o, w, w', st, _. split; [exact Qo|]. split; [exact IH|]. split; [exact N0|]. split; [apply kept_refl|]. destruct sending; reflexivity.
    + inv_call N as w1 hm H1. rewrite (got_ok _ _ _ _ _ H1). specialize (IHr _ _ H1). cbn [client_at] in IHr.
      apply client_wait_sh_ok in N. destruct N as (sh & n & vs & T & U & _ & _ & Is & [[Rd N]|[Rd N]]).
      * pose proof (hrr_psks _ _ _ _ _ _ _ N) as Hps. pose proof (path_kind _ _ _ _ _ _ _ _ (path_next _ _ _ _ _ _ _ _ _ _ _ _ _ _ Pa Qo Nc N1)) as Kw.
        apply client_hrr_ok in N. destruct N as (cookie & ps & exts & Cm & -> & -> & -> & Er & Ef & Wc & _).
        destruct IHr as (evs0 & o0 & w0 & w2 & st & acts & Qo0 & ((F & Kw0 & [[l L] Q'] & B) & S1 & S2 & S3 & S4) & Cs & K & ->).
        pose proof (frame_run _ _ _ _ (frame_client_start w0 P o0 w0 st (frame_refl _)) Cs) as [Fc Fp]. destruct K as (_ & K1 & K2 & _).
        destruct (client_offers _ _ _ _ _ _ _ _ _ _ Cs (ex_intro _ l L) Q' Kw0 S1) as (shares & _ & Of).
        apply client_start_ok in Cs. destruct Cs as (ws' & ch & sending & k & Ews & _ & _ & M & _ & _ & _ & E1 & E2 & _). injection Ews as <-.
        assert (is_type (ws_hello ws) 1) as T1. { destruct M as (_ & M & _). exact M. }
        assert (is_retry hm = true) as Rt. { rewrite (retry_iff _ _ _ T U), Rd. apply beqb_refl. }
        cbn [client_at sent_of map app]. unfold at_start, begun. cbn [st_first st_hrr st_serverName st_nextProtos st_params].
        split; [split; [|split; [exact Kw|split; [split|]]]|split; [congruence|split; [congruence|split; [reflexivity|]]]].
        -- cbn [st_cookie]. rewrite <- app_assoc. eapply retries_more; [exact F|exact Of|exact T|exact Rt|exact U|]. intros Nh. unfold ext_recv in Er.
           rewrite K1, Fc, L in Er. cbn [cf_extensionHandler set_suites] in Er. change (cf_extensionHandler (cfg_init cfg)) with (cf_extensionHandler cfg) in Er.
           rewrite Nh in Er. apply Ok_inj in Er. subst exts. now apply value_found.
        -- exists [sh_suite sh]. rewrite Wc, K1, Fc, L. apply set_suites_twice.
        -- rewrite Hps, K2, Fp. exact Q'.
        -- rewrite Wc. cbn [cf_cipherSuites set_suites]. intros id ps' [<-|[]] Cm'. rewrite Cm in Cm'. injection Cm' as <-.
           rewrite transcript_retry by assumption. reflexivity.
        -- split; [split; [discriminate|]|]; intros Z; destruct evs0; discriminate.
      * pose proof N as N0. apply client_server_hello_ok in N. destruct N as (exts & found & selected & share & ps & dh & _ & _ & _ & N). cbv zeta in N. destruct N as (_ & _ & N).
        destruct (handshake_secrets _ _ _ _ _) as [[chs shs] master]. destruct N as (-> & -> & ->).
        cbn [client_at]. eexists evs, o, w1, w', ws, hm, sh, n, _. split; [exact IHr|]. split; [exact T|]. split; [exact U|]. split; [exact Rd|]. split; [exact Is|].
        split; [exact N0|]. split; [apply kept_refl|]. match goal with |- context [if ?b then [] else _] => destruct b end; reflexivity.
    + inv_call N as w1 hm H1. rewrite (got_ok _ _ _ _ _ H1). specialize (IHr _ _ H1). cbn [client_at] in IHr. pose proof N as N0.
      apply client_wait_ee_ok in N. destruct N as (exts & exts' & found & protos & T & _ & _ & _ & _ & -> & N). cbv zeta in N. destruct N as [Es ->].
      assert (after_ee (evs ++ [Received hm]) w' s') as A.
      { eexists evs, o, w1, w', k, hm, _. split; [exact IHr|]. split; [exact N0|]. split; [apply kept_refl|reflexivity]. }
      replace (sent_of _) with (@nil hmsg) by (destruct (_ && _); reflexivity). cbn [map app].
      destruct (p_usingPSK (ck_params k)); subst s'; [left; exact A|exact A].
    + inv_call N as w1 hm H1. rewrite (got_ok _ _ _ _ _ H1). specialize (IHr _ _ H1). cbn [client_at] in IHr. pose proof N as N0.
      apply client_wait_cert_cr_ok in N. destruct N as (_ & -> & -> & [(cert & T & _ & ->)|(cr & T & _ & _ & ->)]); cbn [client_at sent_of map app].
      * exists evs, w1, w', hm. split; [apply kept_refl|]. split; [reflexivity|]. left. eauto.
      * exists evs, w1, w', k, hm. split; [exact IHr|]. split; [exact N0|]. split; [apply kept_refl|reflexivity].
    + inv_call N as w1 hm H1. rewrite (got_ok _ _ _ _ _ H1). specialize (IHr _ _ H1). cbn [client_at] in IHr. pose proof N as N0.
      apply client_wait_cert_ok in N. destruct N as (_ & -> & -> & cert & T & _ & ->). cbn [client_at sent_of map app].
      exists evs, w1, w', hm. split; [apply kept_refl|]. split; [reflexivity|]. right. eauto.
    + inv_call N as w1 hm H1. rewrite (got_ok _ _ _ _ _ H1). specialize (IHr _ _ H1). cbn [client_at] in IHr. pose proof N as N0.
      apply client_wait_cv_ok in N. destruct N as (_ & -> & -> & cv & leaf & rest & chains & T & _ & _ & _ & _ & _ & ->). cbn [client_at sent_of map app].
      right. exists evs, o, w1, w', k, cert, cr, hm. split; [exact Qo|]. split; [exact IHr|]. split; [exact N0|]. split; [apply kept_refl|reflexivity].
    + inv_call N as w1 hm H1. rewrite (got_ok _ _ _ _ _ H1). specialize (IHr _ _ H1). cbn [client_at] in IHr. pose proof N as N0.
      apply client_wait_finished_ok in N. destruct N as (w2 & w3 & eoed & auth & finm & T & N). cbv zeta in N.
      destruct N as (_ & _ & _ & _ & _ & _ & -> & -> & _ & _). cbn [client_at].
      eexists evs, o, w1, w', k, certs, cr, peer, chains, hm, acts. split; [exact IHr|]. split; [exact N0|]. split; [apply kept_refl|reflexivity].
  - eapply client_at_kept; [exact (IH R)|exact K].
Qed.
End Client.
