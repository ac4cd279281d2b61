(** Encoding comes back, and so does a server's ticket. *)
From Verif Require Import Base Syntax SyntaxSpec SyntaxProofs SyntaxProofs2 SyntaxProofs3 Record Handshake Crypto Messages Negotiation Machine CrashProofs2.

Lemma nf_alert {A} (r : res A) n : no_fuel r -> no_fuel (or_alert r n).
Proof. unfold no_fuel. destruct r; cbn; congruence. Qed.
Lemma nf_varint n : no_fuel (writeVarint n).
Proof. unfold writeVarint. repeat match goal with |- no_fuel (let _ := _ in _) => cbv zeta | |- no_fuel (match ?x with _ => _ end) => destruct x end; nf. Qed.
Lemma nf_length n o : no_fuel (encodeLength n o).
Proof. unfold encodeLength. nf. apply nf_varint. Qed.
Lemma nf_ill {A} : no_fuel (@ill A). Proof. discriminate. Qed.
#[local] Hint Resolve nf_varint nf_length nf_ill nf_alert : nofuel.
Lemma nf_enc_all (enc : val -> res bytes) l : (forall v, no_fuel (enc v)) -> no_fuel (enc_all enc l).
Proof. intros H. induction l as [|v l IH]; cbn [enc_all]; nf. Qed.
Lemma nf_enc_pairs (ek ev : val -> res bytes) l : (forall v, no_fuel (ek v)) -> (forall v, no_fuel (ev v)) -> no_fuel (enc_pairs ek ev l).
Proof. intros H K. induction l as [|[k v] l IH]; cbn [enc_pairs]; nf. Qed.
Lemma encode_no_fuel :
  (forall t o v, no_fuel (encode t o v)) /\ (forall fs l, no_fuel (encode_fields fs l)).
Proof.
  apply ty_fields_ind.
  - intros s o v. cbn [encode]. destruct v; nf.
  - intros n t IH o v. cbn [encode]. destruct v; nf. now apply nf_enc_all.
  - intros t IH o v. cbn [encode]. destruct v; nf. now apply nf_enc_all.
  - intros fs IH o v. cbn [encode]. destruct v; nf.
  - intros k IHk e IHe o v. cbn [encode]. destruct v as [n|l|l| |v]; nf. now apply nf_enc_pairs.
  - intros t IH o v. cbn [encode]. destruct v; nf.
  - intros p t IH o v. cbn [encode]. nf.
  - intros z e d o v. cbn [encode]. destruct (e v); nf.
  - intros l. cbn [encode_fields]. destruct l; nf.
  - intros o t IHt fs IHf l. cbn [encode_fields]. destruct l; nf.
Qed.
Lemma nf_marshal t v : no_fuel (marshal t v).
Proof. unfold marshal. destruct (ty_valid t); [apply encode_no_fuel|nf]. Qed.
Lemma ticket_back P o w k w' r : newTicket P o w k = (w', r) -> match r with Panic | Fuel => False | _ => True end.
Proof.
  unfold newTicket. destruct (newSessionTicket _ _) as [t|e| |] eqn:Et; cbn [or_alert sbind]; try (intros [= <- <-]; exact I); try (unfold newSessionTicket in Et; destruct (o_ticket o); discriminate).
  unfold el_add. pose proof (np_marshal tedi_ty (VList [VUint (cf_earlyDataLifetime (w_cfg w))])) as N1. pose proof (nf_marshal tedi_ty (VList [VUint (cf_earlyDataLifetime (w_cfg w))])) as N2. unfold tedi_marshal.
  destruct (marshal tedi_ty _) as [d|e| |]; cbn [bind or_alert sbind]; try (intros [= <- <-]; exact I); try (destruct (N1 eq_refl)); try (destruct (N2 eq_refl)).
  destruct (el_replace _ _ _); cbn [or_alert sbind]; unfold newMessage, makeMessage; cbn [body_marshal]; unfold tkt_marshal;
  match goal with |- context [marshal tkt_ty ?v] => pose proof (np_marshal tkt_ty v) as N3; pose proof (nf_marshal tkt_ty v) as N4; destruct (marshal tkt_ty v) end;
  cbn [bind messageFromBody or_alert sbind]; try (intros [= <- <-]; exact I); try (destruct (N3 eq_refl)); destruct (N4 eq_refl).
Qed.
