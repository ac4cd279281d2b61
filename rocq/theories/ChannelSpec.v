(** Specification vocabulary for two connected ends: what is on the way between them and the runs of such a pair. *)
From Verif Require Import Base Frame FrameProofs Record RecordSpec HandshakeProofs Handshake Crypto Messages Pki Negotiation Machine Conn ConnSpec.

(** ** Keys *)

(** AES-GCM: opening inverts sealing; the tag has 16 bytes (at most). *)
Definition gcm_ok (E : env) : Prop := forall key, aead_ok (v_gcm E key) /\ (overhead (v_gcm E key) <= 16)%nat.
(** The traffic secret after [sec] in the direction from the client, or to it. *)
Definition next_secret (E : env) (s : suite) (from_client : bool) (sec : bytes) : bytes :=
  hkdfExpandLabel (v_prims E) (s_hash s) sec (if from_client then str "c ap traffic" else str "s ap traffic") [] (hsize (s_hash s)).
(** A layer with the keys of a traffic secret. *)
Definition keyed (E : env) (s : suite) (r : rcore) (sec : bytes) : rcore :=
  let k := makeTrafficKeys (v_prims E) s sec in rekey r EpochUpdate (v_gcm E (k_key k)) (k_iv k).

(** ** In flight *)

Inductive item := Data (d : bytes) | Update (requested : bool) | Ticket (t : ticket) (body : bytes).
Definition app_data (l : list item) : bytes := concat (map (fun i => match i with Data d => d | _ => [] end) l).
(** The content of the record of an item: type and fragment. *)
Definition carries (E : env) (from_client : bool) (i : item) (pt : plaintext) : Prop :=
  match i with
  | Data d => p_type pt = x17 /\ p_fragment pt = d
  | Update b => p_type pt = x16 /\ p_fragment pt = [x18; x00; x00; x01; if b then x01 else x00]
  | Ticket t body => p_type pt = x16 /\ p_fragment pt = [x04] ++ be 3 (len body) ++ body /\ len body < 2 ^ 24 /\
      toBody (x_parses (v_pki E)) x04 body = Ok (BNewSessionTicket t) /\ from_client = false
  end.
(** A reader's keys and secret after an item. *)
Definition secret_after (E : env) (s : suite) (from_client : bool) (i : item) (sec : bytes) : bytes :=
  match i with Update _ => next_secret E s from_client sec | _ => sec end.
Definition core_after (E : env) (s : suite) (from_client : bool) (i : item) (r : rcore) (sec : bytes) : rcore :=
  match i with Update _ => keyed E s r (next_secret E s from_client sec) | _ => r end.
(** [flow r sec data items w sec']: the bytes [data] are records that a reader in state [r], with the traffic secret
    [sec], opens one after the other, changing keys after each key update, and that leave it in step with the writer
    [w], whose traffic secret is [sec']. *)
Inductive flow (E : env) (s : suite) (from_client : bool) : rcore -> bytes -> bytes -> list item -> rcore -> bytes -> Prop :=
| flow_nil r sec w : in_step (cur w) (cur r) -> flow E s from_client r sec [] [] w sec
| flow_cons r sec data hdr body rest core pt i items w sec' :
    first_frame (recordFraming false) data = Some (Ok (hdr, body), rest) -> handleFrame r false hdr body = (core, Ok pt) ->
    carries E from_client i pt ->
    flow E s from_client (core_after E s from_client i core sec) (secret_after E s from_client i sec) rest items w sec' ->
    flow E s from_client r sec data (i :: items) w sec'.

(** ** Two ends *)

(** What the program around a connected end does not change. *)
Record end_ok (s : suite) (client : bool) (c : conn) : Prop := mkEnd {
  eo_client : c_isClient c = client; eo_complete : c_complete c = true; eo_connected : is_connected c = true;
  eo_state : sc_isClient (c_state c) = client; eo_suite : sc_suite (c_state c) = s;
  eo_tls : cf_useDTLS (c_cfg c) = false; eo_psks : cf_psks (c_cfg c) <> None;
  eo_in : hl_datagram (x_in (c_ctx c)) = false; eo_out : hl_datagram (x_out (c_ctx c)) = false;
  eo_max : hl_max (x_out (c_ctx c)) = N.to_nat 16384; eo_sent : x_sent (c_ctx c) = []; eo_queued : hl_queued (x_out (c_ctx c)) = [];
  eo_frame : f_rem (hl_frame (x_in (c_ctx c))) = [] }.
(** The layer that reads and the one that writes. *)
Definition reader_ok (l : rlayer) : Prop :=
  rl_wf l /\ r_datagram (l_core l) = false /\ r_dir (l_core l) = DirRead /\ cur_ok (l_core l).
Definition keyed_cs (c : cstate) : Prop := (exists k, c_aead c = Some k /\ aead_ok k /\ (overhead k <= 16)%nat) /\ (8 <= List.length (c_iv c))%nat.
Definition writer_ok (l : rlayer) : Prop :=
  r_datagram (l_core l) = false /\ r_dir (l_core l) = DirWrite /\ cur_ok (l_core l) /\ keyed_cs (cur (l_core l)).
(** The secret a connected end writes with, and the one it reads with. *)
Definition write_secret (client : bool) (c : conn) : bytes := if client then sc_cts (c_state c) else sc_sts (c_state c).
Definition read_secret (client : bool) (c : conn) : bytes := if client then sc_sts (c_state c) else sc_cts (c_state c).

(** Two ends and the bytes under way in the network, from the client to the server and back. *)
Record net := mkNet { n_client : conn; n_server : conn; n_up : bytes; n_down : bytes }.
(** One direction: the bytes that [a] has written and [b] has not opened are the items [l]. *)
Definition direction_ok (E : env) (s : suite) (from_client : bool) (a b : conn) (transit : bytes) (l : list item) : Prop :=
  writer_ok (c_out a) /\ reader_ok (c_in b) /\
  flow E s from_client (l_core (c_in b)) (read_secret (negb from_client) b) (rl_data (c_in b) ++ transit ++ concat (l_out (c_out a))) l
       (l_core (c_out a)) (write_secret from_client a).
(** A pair that is in step, with the items [up] and [down] under way. *)
Definition linked (E : env) (s : suite) (n : net) (up down : list item) : Prop :=
  end_ok s true (n_client n) /\ end_ok s false (n_server n) /\
  direction_ok E s true (n_client n) (n_server n) (n_up n) up /\ direction_ok E s false (n_server n) (n_client n) (n_down n) down.

(** ** Runs *)

(** A call at one end that does not crash, with the bytes accepted from the application and those returned to it. *)
Inductive call_of (E : env) (c : conn) : bytes -> bytes -> conn -> Prop :=
| co_write b c' n r : write c b = (c', (n, r)) -> r <> Panic -> call_of E c (firstn n b) [] c'
| co_read fuel os n c' r : read E fuel os c n = (c', r) -> r <> Panic -> call_of E c [] (match r with Ok d => d | _ => [] end) c'
| co_update o b c' r : sendKeyUpdate E o c b = (c', r) -> r <> Panic -> call_of E c [] [] c'
| co_handshake fuel os c' r : handshake E fuel os c = (c', r) -> r <> Panic -> call_of E c [] [] c'.
(** What the applications have written and got: by the client, by the server. *)
Record traffic := mkTr { wrote_c : bytes; got_c : bytes; wrote_s : bytes; got_s : bytes }.
(** The network takes what was written, and delivers bytes in the order they were written, in pieces of any size. *)
Inductive run (E : env) (n0 : net) : traffic -> net -> Prop :=
| run_new : run E n0 (mkTr [] [] [] []) n0
| run_client t n w g c' : run E n0 t n -> call_of E (n_client n) w g c' ->
    run E n0 (mkTr (wrote_c t ++ w) (got_c t ++ g) (wrote_s t) (got_s t)) (mkNet c' (n_server n) (n_up n) (n_down n))
| run_server t n w g c' : run E n0 t n -> call_of E (n_server n) w g c' ->
    run E n0 (mkTr (wrote_c t) (got_c t) (wrote_s t ++ w) (got_s t ++ g)) (mkNet (n_client n) c' (n_up n) (n_down n))
| run_take_client t n : run E n0 t n ->
    run E n0 t (mkNet (taken (n_client n)) (n_server n) (n_up n ++ concat (l_out (c_out (n_client n)))) (n_down n))
| run_take_server t n : run E n0 t n ->
    run E n0 t (mkNet (n_client n) (taken (n_server n)) (n_up n) (n_down n ++ concat (l_out (c_out (n_server n)))))
| run_deliver_server t n x y : run E n0 t n -> n_up n = x ++ y ->
    run E n0 t (mkNet (n_client n) (arrives (n_server n) [RBytes x]) y (n_down n))
| run_deliver_client t n x y : run E n0 t n -> n_down n = x ++ y ->
    run E n0 t (mkNet (arrives (n_client n) [RBytes x]) (n_server n) (n_up n) y).
