(** Messages survive the wire (C38), clients tell notifications from responses (C39), messages are framed one per line
    (C57). *)
From Coq Require Import String List Arith ZArith Lia Bool Sorting.Sorted.
From Verif Require Import Base ListFacts LineFacts Maps Fmt View ViewSpec ViewFacts Utf8 Utf8Spec Utf8Facts Coords CoordsFacts CoordsMore Json JsonFacts Proto ProtoFacts.
Import ListNotations.

(** ** C38: what is decoded is what was encoded *)
Theorem C38_request r : wire_request r ->
  parse_request (print_request r) = Some (mkReq (rq_version r) (rq_id r) (rq_method r) (no_null (rq_params r))).
Proof.
  intro W. destruct (request_wire _ W) as [P L]. unfold parse_request, print_request. rewrite parse_print by auto. now apply dec_enc_request.
Qed.
Theorem C38_notification n : wire_notification n ->
  parse_event (print_event (EvNotification n)) = Some (EvNotification (mkNot (nt_version n) (nt_method n) (no_null (nt_params n)))).
Proof.
  intro W. destruct (notification_wire _ W) as [P L]. unfold parse_event, print_event, enc_event. rewrite parse_print by auto.
  unfold dec_event. now rewrite dec_enc_notification.
Qed.
Lemma response_event r : wire_response r ->
  parse_event (print_event (EvResponse r)) = Some (EvResponse (mkResp (rp_version r) (rp_id r) (no_null (rp_result r)) (option_map no_null_error (rp_error r)))).
Proof.
  intro W. destruct (response_wire _ W) as [P L]. unfold parse_event, print_event, enc_event. rewrite parse_print by auto.
  unfold dec_event. now rewrite response_not_notification, dec_enc_response.
Qed.
(** *** typed parameters *)
Definition wire_json (j : json) : Prop := plain_json j /\ levels j < 127.
Lemma norm_wire j : wire_json j -> wire_value (norm j).
Proof. intros [P L]. split; [apply norm_ok|]. split; [now apply norm_plain|]. pose proof (norm_levels j). lia. Qed.
Lemma params_wire {T} (enc : T -> json) (dec : json -> option T) x i m :
  dec (norm (enc x)) = Some x -> norm (enc x) <> JNull -> wire_json (enc x) -> wire_id i ->
  exists r, parse_request (print_request (new_request i m (Some (enc x)))) = Some r /\
    rq_id r = i /\ rq_method r = m /\ params_of dec (rq_params r) = Some (Some x).
Proof.
  intros D N W I. rewrite C38_request by (split; [exact I|now apply norm_wire]). eexists. split; [reflexivity|]. cbn [new_request rq_id rq_method rq_params rq_version option_map no_null].
  split; auto. split; auto. destruct (norm (enc x)) eqn:E; try congruence; cbn [params_of]; now rewrite D.
Qed.
Theorem C38_edit p i m : wire_id i -> exists r, parse_request (print_request (new_request i m (Some (enc_edit p)))) = Some r /\
  rq_id r = i /\ rq_method r = m /\ params_of dec_edit (rq_params r) = Some (Some p).
Proof. destruct p as [n s]. apply params_wire; [reflexivity|discriminate|]. split; cbn; auto. lia. Qed.
Theorem C38_menu p i m : wire_id i -> exists r, parse_request (print_request (new_request i m (Some (enc_menu p)))) = Some r /\
  rq_id r = i /\ rq_method r = m /\ params_of dec_menu (rq_params r) = Some (Some p).
Proof. destruct p as [n s]. apply params_wire; [reflexivity|discriminate|]. split; cbn; auto. lia. Qed.
Theorem C38_select p i m : wire_id i -> exists r, parse_request (print_request (new_request i m (Some (enc_select p)))) = Some r /\
  rq_id r = i /\ rq_method r = m /\ params_of dec_select (rq_params r) = Some (Some p).
Proof. destruct p as [n s]. apply params_wire; [reflexivity|discriminate|]. split; cbn; auto. lia. Qed.
Theorem C38_string x i m : wire_id i -> exists r, parse_request (print_request (new_request i m (Some (JStr x)))) = Some r /\
  rq_id r = i /\ rq_method r = m /\ params_of dec_str (rq_params r) = Some (Some x).
Proof. apply (params_wire JStr dec_str); [reflexivity|discriminate|]. split; cbn; auto. lia. Qed.
(** a [Key::Char] holds one character *)
Definition key_char_ok (e : key_event) : Prop := match ke_key e with KChar c => one_char c = true | _ => True end.
Lemma dec_enc_key_event e : key_char_ok e -> dec_key_event (norm (enc_key_event e)) = Some e.
Proof.
  destruct e as [a b c k]. unfold key_char_ok, enc_key_event. cbn [ke_ctrl ke_alt ke_shift ke_key].
  intro H.
  assert (norm (JObj [(str "ctrl", JBool a); (str "alt", JBool b); (str "shift", JBool c); (str "key", enc_key k)]) =
    JObj [(str "alt", JBool b); (str "ctrl", JBool a); (str "key", norm (enc_key k)); (str "shift", JBool c)]) as -> by (destruct (norm (enc_key k)) eqn:E; cbn [norm map fst snd]; rewrite E; reflexivity).
  unfold dec_key_event. replace (fields _ _) with (Some [Some (JBool a); Some (JBool b); Some (JBool c); Some (norm (enc_key k))]) by reflexivity.
  cbn [dec_bool]. assert (dec_key (norm (enc_key k)) = Some k) as ->; [|reflexivity].
  destruct k as [x| | | | | | |]; try reflexivity. change (norm (enc_key (KChar x))) with (JObj [(str "Char", JStr x)]). unfold dec_key. now rewrite H.
Qed.
Lemma key_event_plain e : plain_json (enc_key_event e) /\ levels (enc_key_event e) <= 2.
Proof. destruct e as [a b c k]. destruct k; split; cbn; auto 10. Qed.
Lemma all_some_map {A} (l : list A) : all_some (map Some l) = Some l.
Proof. induction l as [|x l IH]; cbn [map all_some]; auto. now rewrite IH. Qed.
Theorem C38_keys l i m : Forall key_char_ok l -> wire_id i ->
  exists r, parse_request (print_request (new_request i m (Some (enc_keys l)))) = Some r /\
  rq_id r = i /\ rq_method r = m /\ params_of dec_keys (rq_params r) = Some (Some l).
Proof.
  intros F. apply params_wire; [|discriminate|].
  - cbn [enc_keys norm dec_keys]. rewrite !map_map. transitivity (all_some (map Some l)); [|apply all_some_map]. f_equal. apply map_ext_in. intros e He. rewrite Forall_forall in F. now apply dec_enc_key_event, F.
  - clear F. split; cbn [enc_keys plain_json levels].
    + apply folded_forall. apply Forall_map. apply Forall_forall. intros e _. apply key_event_plain.
    + rewrite map_map. assert (list_max (map (fun x => levels (enc_key_event x)) l) <= 2) as L; [|lia]. apply list_max_map_le. apply Forall_forall. intros e _. apply key_event_plain.
Qed.
Example C38_keys_demo :
  match parse_request (print_request (new_request (IdNum 7) (str "keys") (Some (enc_keys [mkKey true false false (KChar [195; 169]); mkKey false true true KEscape])))) with
  | Some r => params_of dec_keys (rq_params r) = Some (Some [mkKey true false false (KChar [195; 169]); mkKey false true true KEscape]) /\ rq_id r = IdNum 7
  | None => False
  end.
Proof. vm_compute. split; reflexivity. Qed.

(** *** responses *)
Theorem C38_success_partial i j : wire_id i -> wire_json j -> norm j <> JNull ->
  exists r, parse_event (print_event (EvResponse (new_response i (inl (norm j))))) = Some (EvResponse r) /\
    rp_id r = i /\ response_result r = Ok (inl (norm j)).
Proof.
  intros I W N. rewrite response_event by (split; [exact I|split; [now apply norm_wire|exact Logic.I]]). eexists. split; [reflexivity|].
  split; auto. cbn [new_response rp_result no_null]. destruct (norm j); try congruence; reflexivity.
Qed.
Theorem C38_error i e : wire_id i -> wire_error e ->
  exists r, parse_event (print_event (EvResponse (new_response i (inr e)))) = Some (EvResponse r) /\
    rp_id r = i /\ response_result r = Ok (inr (no_null_error e)).
Proof.
  intros I W. rewrite response_event by (split; [exact I|split; [exact Logic.I|exact W]]). eexists. split; [reflexivity|]. split; reflexivity.
Qed.
(** the errors the editor makes carry a text: they come back unchanged *)
Theorem C38_error_texts i x f : wire_id i -> In f [invalid_request; method_not_found; invalid_params; internal_error] ->
  exists r, parse_event (print_event (EvResponse (new_response i (inr (f x))))) = Some (EvResponse r) /\
    rp_id r = i /\ response_result r = Ok (inr (f x)).
Proof.
  intros I F. destruct (C38_error i (f x) I) as (r & A & B & C).
  - repeat (destruct F as [<-|F]; [split; [reflexivity|cbn; repeat split; lia]|]). destruct F.
  - exists r. split; auto. split; auto. rewrite C. repeat (destruct F as [<-|F]; [reflexivity|]). destruct F.
Qed.
(** The success of a request whose result is unit - every request of the protocol - is written [null], read back as
    neither a result nor an error, and asking for the result panics. *)
Theorem C38_refuted i : wire_id i ->
  exists r, parse_event (print_event (EvResponse (new_response i (inl JNull)))) = Some (EvResponse r) /\
    rp_result r = None /\ rp_error r = None /\ exists why, response_result r = Panic why.
Proof.
  intros I. rewrite response_event by (split; [exact I|split; [repeat split; cbn; lia|exact Logic.I]]). eexists. split; [reflexivity|].
  split; auto. split; auto. eexists. reflexivity.
Qed.
Example C38_success_demo :
  match parse_event (print_event (EvResponse (new_response (IdStr (str "a""b")) (inl (norm (JObj [(str "z", JInt (-3)); (str "a", JArr [JNull; JBool true])])))))) with
  | Some (EvResponse r) => response_result r = Ok (inl (JObj [(str "a", JArr [JNull; JBool true]); (str "z", JInt (-3))]))
  | _ => False
  end.
Proof. vm_compute. reflexivity. Qed.

(** ** C39 *)
Definition is_notification (e : event) : bool := match e with EvNotification _ => true | EvResponse _ => false end.
Definition wire_event (e : event) : Prop := match e with EvNotification n => wire_notification n | EvResponse r => wire_response r end.
Theorem C39 e : wire_event e -> exists e', parse_event (print_event e) = Some e' /\ is_notification e' = is_notification e /\
  match e, e' with
  | EvNotification n, EvNotification n' => nt_method n' = nt_method n /\ nt_params n' = no_null (nt_params n)
  | EvResponse r, EvResponse r' => rp_id r' = rp_id r
  | _, _ => False
  end.
Proof.
  destruct e as [n|r]; intro W; [rewrite C38_notification by exact W|rewrite response_event by exact W]; eexists; (split; [reflexivity|]); cbn; auto.
Qed.
(** even a line written by another program: what has a textual [method] and a well-formed version is never taken for a response *)
Theorem C39_foreign line j m v : parse line = Some j -> fields [str "jsonrpc"; str "method"; str "params"] j = Some [Some (JStr v); Some (JStr m); None] ->
  parse_event line = Some (EvNotification (mkNot v m None)).
Proof. intros P F. unfold parse_event. rewrite P. unfold dec_event, dec_notification. rewrite F. reflexivity. Qed.
Example C39_demo : wire_event (EvNotification (new_notification (str "echo") (Some (JStr [104; 10; 34])))) /\
  parse_event (print_event (EvNotification (new_notification (str "echo") (Some (JStr [104; 10; 34]))))) =
    Some (EvNotification (new_notification (str "echo") (Some (JStr [104; 10; 34])))).
Proof. split; [repeat split; cbn; lia|vm_compute; reflexivity]. Qed.

(** ** C57: one message per line *)
Lemma event_plain e : wire_event e -> plain_json (enc_event e).
Proof. destruct e; intro W; [apply (notification_wire _ W)|apply (response_wire _ W)]. Qed.
(** server.rs:61-67 [write_client], remote/src/client.rs:33 *)
Definition write_line (m : text) : text := m ++ [LF].
(** StdioClient::run, clients.rs:85: [stdout.write_all(msg.to_string().as_bytes())] *)
Definition write_stdio (m : text) : text := m.
Lemma lines_written ms : Forall (fun m => Forall (fun c => 32 <= c) m) ms -> str_lines (flat_map write_line ms) = ms.
Proof.
  unfold str_lines. induction 1 as [|m ms Hm F IH]; cbn [flat_map]; auto. unfold write_line at 1. rewrite <- app_assoc. cbn [app].
  rewrite str_lines_acc_cons by (revert Hm; unfold nolf; clear; induction 1; constructor; auto; unfold LF; lia). cbn [rev app]. rewrite IH. f_equal.
  unfold strip_cr. destruct (rev m) as [|b q] eqn:E; auto. assert (In b m) as Hb by (apply in_rev; rewrite E; now left). rewrite Forall_forall in Hm. specialize (Hm _ Hb).
  do 32 (destruct b as [|b]; [lia|]). reflexivity.
Qed.
(** the message read: a null [params], [result] or [data] is read as absent *)
Definition received (e : event) : event :=
  match e with
  | EvNotification n => EvNotification (mkNot (nt_version n) (nt_method n) (no_null (nt_params n)))
  | EvResponse r => EvResponse (mkResp (rp_version r) (rp_id r) (no_null (rp_result r)) (option_map no_null_error (rp_error r)))
  end.
Theorem C57 es : Forall wire_event es ->
  str_lines (flat_map (fun e => write_line (print_event e)) es) = map print_event es /\
  map parse_event (str_lines (flat_map (fun e => write_line (print_event e)) es)) = map (fun e => Some (received e)) es.
Proof.
  intro F. assert (str_lines (flat_map (fun e => write_line (print_event e)) es) = map print_event es) as E.
  - rewrite <- (lines_written (map print_event es)) at 1.
    + now rewrite flat_map_concat_map, flat_map_concat_map, map_map.
    + apply Forall_map. rewrite Forall_forall in *. intros e He. apply Forall_forall. intros c Hc. eapply print_visible; [|exact Hc]. now apply event_plain, F.
  - split; auto. rewrite E, map_map. apply map_ext_in. intros e He. rewrite Forall_forall in F. specialize (F _ He). destruct e; [now apply C38_notification|now apply response_event].
Qed.
Example C57_demo : let es := [EvNotification (new_notification (str "echo") (Some (JStr [10; 13; 10]))); EvResponse (new_response (IdNum 2) (inr (invalid_params [9])))] in
  Forall wire_event es /\ map parse_event (str_lines (flat_map (fun e => write_line (print_event e)) es)) = map Some es.
Proof. split; [repeat constructor; cbn; lia|vm_compute; reflexivity]. Qed.
Theorem C57_requests rs : Forall wire_request rs ->
  str_lines (flat_map (fun r => write_line (print_request r)) rs) = map print_request rs /\
  map parse_request (str_lines (flat_map (fun r => write_line (print_request r)) rs)) =
    map (fun r => Some (mkReq (rq_version r) (rq_id r) (rq_method r) (no_null (rq_params r)))) rs.
Proof.
  intro F. assert (str_lines (flat_map (fun r => write_line (print_request r)) rs) = map print_request rs) as E.
  - rewrite <- (lines_written (map print_request rs)) at 1.
    + now rewrite flat_map_concat_map, flat_map_concat_map, map_map.
    + apply Forall_map. rewrite Forall_forall in *. intros r Hr. apply Forall_forall. intros c Hc. eapply print_visible; [|exact Hc]. now apply request_wire, F.
  - split; auto. rewrite E, map_map. apply map_ext_in. intros r Hr. rewrite Forall_forall in F. now apply C38_request, F.
Qed.
(** The client on the terminal's standard output writes no end of line: two messages are one line, which is no message. *)
Theorem C57_refuted : exists e1 e2, wire_event e1 /\ wire_event e2 /\
  str_lines (flat_map (fun e => write_stdio (print_event e)) [e1; e2]) = [print_event e1 ++ print_event e2] /\
  parse_event (print_event e1 ++ print_event e2) = None.
Proof.
  exists (EvNotification (new_notification (str "hint") None)), (EvResponse (new_response (IdNum 1) (inl JNull))).
  split; [exact Logic.I|]. split; [repeat split; cbn; lia|]. split; vm_compute; reflexivity.
Qed.
