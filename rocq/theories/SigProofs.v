(** Signatures in CertificateVerify. *)
From Verif Require Import Base Crypto CryptoProofs Messages Pki SigSpec.

Lemma content_server hh : encodeSignatureInput hh = signed_content server_context hh.
Proof. reflexivity. Qed.
Lemma content_inj c h h' : signed_content c h = signed_content c h' -> h = h'.
Proof. unfold signed_content. intros H. repeat apply app_inv_head in H. exact H. Qed.
(** The two contexts do not give a common content. *)
Lemma contexts_differ h h' : signed_content server_context h <> signed_content client_context h'.
Proof. unfold signed_content. intros H. apply app_inv_head in H. apply (f_equal (fun l => nth 9 l x00)) in H. discriminate H. Qed.

Definition algs : list N := [0x0201; 0x0401; 0x0501; 0x0601; 0x0403; 0x0503; 0x0603; 0x0804; 0x0805; 0x0806].
Lemma known_alg alg : In alg algs \/ hashMap alg = None.
Proof.
  unfold hashMap. repeat match goal with
  | |- context [?a =? ?b] => destruct (N.eqb_spec a b) as [->|]; [left; vm_compute; tauto|]
  end. right. reflexivity.
Qed.
Lemma primitive_iff alg kt h s : (hashMap alg = Some h /\ h <> SHA1 /\ sig_primitive alg kt = Some s) <-> scheme_for alg kt s h.
Proof.
  split.
  - intros (H & N & S). destruct (known_alg alg) as [K|K]; [|congruence]. unfold sig_primitive in S.
    repeat destruct K as [<-|K]; try contradiction; vm_compute in H; injection H as <-; try (exfalso; apply N; reflexivity);
      destruct kt as [|g|]; cbv in S; try discriminate; try (injection S as <-; constructor).
    all: destruct g as [|p]; try discriminate; repeat (destruct p as [p|p|]; try discriminate); injection S as <-; constructor.
  - intros []; (split; [reflexivity|]); (split; [discriminate|reflexivity]).
Qed.
Lemma verify_iff P X alg cert content sg : verify P X alg cert content sg = Ok tt <-> valid_signature P X alg cert content sg.
Proof.
  unfold verify, valid_signature. split.
  - intros H. destruct (hashMap alg) as [h|] eqn:Hh; [|discriminate]. destruct (sig_primitive alg (x_pubtype X cert)) as [s|] eqn:Hs; [|destruct h; discriminate].
    assert (h <> SHA1) as N by (intros ->; discriminate).
    exists s, h. split; [apply primitive_iff; auto|]. destruct h; try discriminate; match goal with H : (if ?b then _ else _) = _ |- _ => destruct b; [reflexivity|discriminate] end.
  - intros (s & h & F & V). apply primitive_iff in F. destruct F as (-> & N & ->). destruct h; try (exfalso; apply N; reflexivity); now rewrite V.
Qed.
Lemma cv_verify_iff P X cv cert hh : cv_verify P X cv cert hh = Ok tt <-> valid_signature P X (cv_alg cv) cert (signed_content server_context hh) (cv_sig cv).
Proof. unfold cv_verify. rewrite content_server. apply verify_iff. Qed.
Lemma cv_sign_ok P X alg key hh rnd cv : cv_sign P X alg key hh rnd = Ok cv <->
  cv_alg cv = alg /\ exists s h, scheme_for alg (x_privtype X key) s h /\ x_sign X key s h (digest P h (signed_content server_context hh)) rnd = Some (cv_sig cv).
Proof.
  unfold cv_sign, sign. rewrite content_server. split.
  - intros H. inv_bind H as sg H1. apply Ok_inj in H. subst cv. split; [reflexivity|]. cbn [cv_sig].
    destruct (hashMap alg) as [h|] eqn:Hh; [|discriminate]. destruct (sig_primitive alg (x_privtype X key)) as [s|] eqn:Hs; [|destruct h; discriminate].
    assert (h <> SHA1) as N by (intros ->; discriminate).
    exists s, h. split; [apply primitive_iff; auto|]. destruct h; try discriminate; destruct (x_sign _ _ _ _ _ _); congruence.
  - intros (A & s & h & F & V). apply primitive_iff in F. destruct F as (-> & N & ->). destruct cv as [a sg]. cbn [cv_alg cv_sig] in *. subst a.
    destruct h; try (exfalso; apply N; reflexivity); rewrite V; reflexivity.
Qed.
Lemma sign_verifies P X alg key cert hh rnd cv : pair_works X cert key -> cv_sign P X alg key hh rnd = Ok cv -> cv_verify P X cv cert hh = Ok tt.
Proof.
  intros [T V] H. apply cv_sign_ok in H. destruct H as (<- & s & h & F & S). apply cv_verify_iff. exists s, h. rewrite T. split; [exact F|]. eapply V; eauto.
Qed.
