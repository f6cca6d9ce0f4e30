(** C74: the relay (mode json) is transparent. *)
From Coq Require Import String List Arith ZArith Lia Bool.
From Verif Require Import Base ListFacts LineFacts PieceTable Coords Utf8 Diff Selection Maps StackMap Fmt Buffer View Json JsonFacts Proto ProtoFacts PropProto Core CoreSpec Payload Menu Editor Server Relay RelayFacts.
Import ListNotations.

(** ** specification *)
(** the requests among the lines of standard input *)
Definition asked_for (ms : list rmove) : list request :=
  flat_map (fun m => match m with RRead (Some l) => match parse_request l with Some q => [q] | None => [] end | _ => [] end) ms.
(** how many were written, and whether all writes were complete *)
Definition writes (ms : list rmove) : nat := length (filter (fun m => match m with RWrite _ => true | _ => false end) ms).
Definition complete (ms : list rmove) : Prop := forall n, ~ In (RWrite (Some n)) ms.
(** the messages of the server *)
Definition arrived (ms : list rmove) : list event :=
  flat_map (fun m => match m with RLine (Some l) true => match parse_event l with Some e => [e] | None => [] end | _ => [] end) ms.

Lemma asked_app a b : asked_for (a ++ b) = asked_for a ++ asked_for b.
Proof. apply flat_map_app. Qed.
Lemma arrived_app a b : arrived (a ++ b) = arrived a ++ arrived b.
Proof. apply flat_map_app. Qed.
Lemma writes_app a b : writes (a ++ b) = writes a + writes b.
Proof. unfold writes. now rewrite filter_app, app_length. Qed.
Lemma firstn_next {A} n (l : list A) x r : skipn n l = x :: r -> firstn (S n) l = firstn n l ++ [x] /\ skipn (S n) l = r.
Proof. revert l. induction n as [|n IH]; intros [|y l] E; cbn in E; try discriminate; [injection E as -> ->; auto|]. destruct (IH l E) as [A1 A2]. split; [|exact A2]. change (y :: firstn (S n) l = y :: (firstn n l ++ [x])). now rewrite A1. Qed.
Lemma relay_inv ms s : rruns relay0 ms s ->
  rl_queue s = skipn (writes ms) (asked_for ms) /\ writes ms <= length (asked_for ms) /\
  (complete ms -> rl_written s = flat_map request_line (firstn (writes ms) (asked_for ms))) /\
  rl_stdout s = concat (map print_event (arrived ms)) /\ (rl_connected s = false -> writes ms = 0 /\ arrived ms = []).
Proof.
  induction 1 as [|ms s1 m s2 R (Q & Wl & Wr & So & Nc) M]; [repeat split; reflexivity || (cbn; auto; lia)|].
  assert (complete (ms ++ [m]) -> complete ms) as Cm by (intros C n I; apply (C n), in_or_app; now left). rewrite asked_app, arrived_app, writes_app, app_length.
  assert (forall q, skipn (writes ms) (asked_for ms ++ q) = skipn (writes ms) (asked_for ms) ++ q /\ firstn (writes ms) (asked_for ms ++ q) = firstn (writes ms) (asked_for ms)) as Grow.
  { intro q. rewrite skipn_app, firstn_app. replace (writes ms - length (asked_for ms)) with 0 by lia. cbn. now rewrite app_nil_r. }
  destruct M as [l E|E|E C|E C|q r cut E C Qe|l ok E C|ok E C|E C]; cbn [writes filter length asked_for flat_map arrived] in *; rewrite ?app_nil_r, ?Nat.add_0_r, ?map_app, ?concat_app; cbn [rl_queue rl_written rl_stdout rl_connected put_end put_stdout put_queue].
  - destruct (parse_request l) as [q|]; cbn [rl_queue rl_written rl_stdout rl_connected put_queue].
    + destruct (Grow [q]) as [G1 G2]. rewrite G1, G2, Q. split; [reflexivity|]. split; [cbn; lia|]. auto.
    + rewrite app_nil_r. split; [exact Q|]. split; [cbn; lia|]. auto.
  - split; [exact Q|]. split; [lia|]. split; [auto|]. split; [exact So|]. exact Nc.
  - split; [exact Q|]. split; [lia|]. split; [auto|]. split; [exact So|]. discriminate.
  - split; [exact Q|]. split; [lia|]. split; [auto|]. split; [exact So|]. exact Nc.
  - rewrite Qe in Q. symmetry in Q. rewrite Nat.add_1_r. destruct (firstn_next _ _ _ _ Q) as [F1 F2]. split; [now rewrite F2|]. split; [|split; [|split; [exact So|discriminate]]].
    + cbn [length]. destruct (le_lt_dec (length (asked_for ms)) (writes ms)) as [D|D]; [|lia]. rewrite skipn_all2 in Q by exact D. discriminate.
    + intro Ct. rewrite (Wr (Cm Ct)), F1, flat_map_app. f_equal. destruct cut as [n|]; [exfalso; apply (Ct n), in_or_app; right; now left|]. cbn [flat_map]. now rewrite app_nil_r.
  - destruct (parse_event l) as [e|]; [destruct ok|]; cbn [rl_queue rl_written rl_stdout rl_connected put_stdout put_end].
    + split; [exact Q|]. split; [cbn; lia|]. split; [auto|]. split; [rewrite So; cbn [map concat]; now rewrite app_nil_r|]. rewrite C. discriminate.
    + split; [exact Q|]. split; [cbn; lia|]. split; [auto|]. split; [rewrite So; cbn [map concat]; now rewrite app_nil_r|]. rewrite C. discriminate.
    + split; [exact Q|]. split; [cbn; lia|]. split; [auto|]. split; [rewrite So; destruct ok; cbn [map concat]; now rewrite app_nil_r|]. rewrite C. discriminate.
  - split; [exact Q|]. split; [lia|]. split; [auto|]. split; [exact So|]. rewrite C. discriminate.
  - split; [exact Q|]. split; [lia|]. split; [auto|]. split; [exact So|]. rewrite C. discriminate.
Qed.

(** ** C74 *)
(** The server reads the requests the user gave, in order, none twice, none made up; those not yet written wait. *)
Theorem C74_partial : forall ms s, rruns relay0 ms s -> complete ms -> Forall (fun q => no_floats_opt (rq_params q)) (asked_for ms) ->
  map parse_request (str_lines (rl_written s)) = map Some (firstn (writes ms) (asked_for ms)) /\
  asked_for ms = firstn (writes ms) (asked_for ms) ++ rl_queue s.
Proof.
  intros ms s R C N. destruct (relay_inv _ _ R) as (Q & Wl & Wr & _). split; [|rewrite Q; symmetry; apply firstn_skipn].
  rewrite (Wr C). assert (Forall (fun q => wire_request q /\ no_null (rq_params q) = rq_params q) (asked_for ms)) as F.
  { clear -N. revert N. unfold asked_for. induction ms as [|m ms IH]; cbn [flat_map]; [constructor|]. intro N. apply Forall_app in N. destruct N as [N1 N2]. apply Forall_app. split; [|now apply IH]. destruct m as [[l|]| | | |]; try constructor. destruct (parse_request l) as [q|] eqn:P; constructor; [|constructor]. inversion N1; subst. eapply parsed_request; eauto. }
  assert (Forall (fun q => wire_request q /\ no_null (rq_params q) = rq_params q) (firstn (writes ms) (asked_for ms))) as F1. { rewrite Forall_forall in *. intros q I. apply F. rewrite <- (firstn_skipn (writes ms)). apply in_or_app. now left. }
  set (qs := firstn (writes ms) (asked_for ms)) in *. clearbody qs. change request_line with (fun q => write_line (print_request q)). destruct (C57_requests qs) as [_ ->]; [eapply Forall_impl; [|exact F1]; now intros q []|].
  apply map_ext_in. intros q I. rewrite Forall_forall in F1. destruct (F1 q I) as [_ E]. f_equal. now apply parsed_request_eta.
Qed.
(** a line that went through the relay is handled like the line itself *)
Theorem C74_same : forall G pol u se L w c line q e, parse_request line = Some q -> no_floats_opt (rq_params q) ->
  handle G pol u se L w c (print_request q) e = handle G pol u se L w c line e.
Proof.
  intros G pol u se L w c line q e P N. destruct (parsed_request _ _ P N) as [W E]. pose proof (C38_request q W) as P'. rewrite (parsed_request_eta _ E) in P'. unfold handle. rewrite P, P'. reflexivity.
Qed.
(** What is written to standard output: the messages of the server, in order; each reads like the line the server sent. *)
Theorem C74_output : forall ms s, rruns relay0 ms s -> Forall event_floats (arrived ms) ->
  rl_stdout s = concat (map print_event (arrived ms)) /\ Forall (fun e => parse_event (print_event e) = Some e) (arrived ms).
Proof.
  intros ms s R N. destruct (relay_inv _ _ R) as (_ & _ & _ & So & _). split; [exact So|]. clear -N. revert N. unfold arrived. induction ms as [|m ms IH]; cbn [flat_map]; [constructor|]. intro N. apply Forall_app in N. destruct N as [N1 N2]. apply Forall_app. split; [|now apply IH].
  destruct m as [| | |[l|] []|]; try constructor. destruct (parse_event l) as [e|] eqn:P; constructor; [|constructor]. inversion N1; subst. eapply parsed_event; eauto.
Qed.
(** it ends only when the connection cannot be made, ends, or breaks, or standard output does not accept a message: the end of its
    input does not end it *)
Theorem C74_ends : forall s m s', rmoves s m s' -> rl_end s = RRunning -> rl_end s' <> RRunning ->
  m = RConnect false \/ m = RClose \/ (exists l, m = RLine (Some l) false) \/ (exists ok, m = RLine None ok).
Proof.
  intros s m s' M E N. destruct M as [l _|_|_ C|_ C|q r cut _ C Qe|l ok _ C|ok _ C|_ C]; auto; try (exfalso; apply N; cbn; auto; fail); eauto.
  - exfalso. apply N. destruct (parse_request l); exact E.
  - right. right. left. exists l. destruct ok; [|reflexivity]. exfalso. apply N. destruct (parse_event l); exact E.
Qed.

(** ** what does not hold *)
(** messages are not separated: after two, no message can be read from standard output (C57_refuted) *)
Theorem C74_glued_refuted : exists ms s, rruns relay0 ms s /\ length (arrived ms) = 2 /\ Forall (fun l => parse_event l = None) (str_lines (rl_stdout s)) /\ str_lines (rl_stdout s) <> [].
Proof.
  set (l1 := print_event (EvNotification (new_notification (str "hint") None))). set (l2 := print_event (EvResponse (new_response (IdNum 1) (inl JNull)))).
  exists (([] ++ [RConnect true]) ++ [RLine (Some l1) true] ++ [RLine (Some l2) true]). rewrite app_assoc. eexists. split.
  - eapply ru_move; [eapply ru_move; [eapply ru_move; [apply ru_stay|apply rm_connect; reflexivity]|apply rm_line; reflexivity]|apply rm_line; [vm_compute; reflexivity|vm_compute; reflexivity]].
  - split; [vm_compute; reflexivity|]. cbv beta. match goal with |- Forall _ (str_lines ?x) /\ _ => assert (str_lines x = [print_event (EvNotification (new_notification (str "hint") None)) ++ print_event (EvResponse (mkResp (str "2.0") (IdNum 1) None None))]) as -> by (vm_compute; reflexivity) end.
    split; [constructor; [vm_compute; reflexivity|constructor]|discriminate].
Qed.
(** the answer to a request that succeeded loses its result: neither a result nor an error is relayed *)
Theorem C74_result_refuted : forall i, wire_id i -> exists ms s r, rruns relay0 ms s /\ ms = [RConnect true; RLine (Some (print_event (EvResponse (new_response i (inl JNull))))) true] /\
  rl_stdout s = print_event (EvResponse r) /\ rp_id r = i /\ enc_response r = JObj [(str "jsonrpc", JStr (str "2.0")); (str "id", enc_id i)].
Proof.
  intros i I. set (l := print_event (EvResponse (new_response i (inl JNull)))). assert (parse_event l = Some (EvResponse (mkResp (str "2.0") i None None))) as P by (unfold l; rewrite response_event; [reflexivity|]; split; [exact I|]; split; [repeat split; cbn; lia|exact Logic.I]).
  clearbody l. exists (([] ++ [RConnect true]) ++ [RLine (Some l) true]), (mkRl [] true [] (print_event (EvResponse (mkResp (str "2.0") i None None))) RRunning), (mkResp (str "2.0") i None None). split; [|split; [reflexivity|split; [reflexivity|split; reflexivity]]].
  eapply ru_move; [eapply ru_move; [apply ru_stay|apply rm_connect; reflexivity]|]. pose proof (rm_line (mkRl [] true [] [] RRunning) l true eq_refl eq_refl) as M. rewrite P in M. exact M.
Qed.
(** requests that wait when the server ends are lost *)
Theorem C74_lost_refuted : exists ms s, rruns relay0 ms s /\ rl_end s = RDone /\ rl_written s = [] /\ length (asked_for ms) = 1.
Proof.
  set (l := print_request (new_request (IdNum 1) (str "quit") None)). exists ((([] ++ [RRead (Some l)]) ++ [RConnect true]) ++ [RClose]). eexists. split.
  - eapply ru_move; [eapply ru_move; [eapply ru_move; [apply ru_stay|apply rm_read; reflexivity]|apply rm_connect; vm_compute; reflexivity]|apply rm_close; vm_compute; reflexivity].
  - split; [vm_compute; reflexivity|]. split; vm_compute; reflexivity.
Qed.
(** the hypotheses are met: two requests and a line that is none, one written *)
Definition demo_edit : text := str " { ""id"" : ""a"", ""method"":""edit"",""jsonrpc"":""2.0"", ""more"": 1.5, ""params"":{""scratch"":true,""name"":""n""}} ".
Definition demo_moves : list rmove := [RRead (Some demo_edit); RRead (Some (str "hello")); RConnect true; RRead (Some (print_request (new_request (IdNum 1) (str "quit") None))); RWrite None].
Example C74_demo : exists s, rruns relay0 demo_moves s /\ complete demo_moves /\ Forall (fun q => no_floats_opt (rq_params q)) (asked_for demo_moves) /\ writes demo_moves = 1 /\ length (asked_for demo_moves) = 2 /\ length (str_lines (rl_written s)) = 1.
Proof.
  eexists. split.
  - change demo_moves with ((((([] ++ [RRead (Some demo_edit)]) ++ [RRead (Some (str "hello"))]) ++ [RConnect true]) ++ [RRead (Some (print_request (new_request (IdNum 1) (str "quit") None)))]) ++ [RWrite None]).
    eapply ru_move; [eapply ru_move; [eapply ru_move; [eapply ru_move; [eapply ru_move; [apply ru_stay|apply rm_read; reflexivity]|apply rm_read; vm_compute; reflexivity]|apply rm_connect; vm_compute; reflexivity]|apply rm_read; vm_compute; reflexivity]|eapply rm_write; vm_compute; reflexivity].
  - split; [intros n H; cbn in H; repeat (destruct H as [H|H]; [discriminate|]); exact H|]. split; [vm_compute; repeat constructor|]. split; [reflexivity|]. split; vm_compute; reflexivity.
Qed.
Print Assumptions C74_partial.
Print Assumptions C74_same.
Print Assumptions C74_output.
Print Assumptions C74_ends.
Print Assumptions C74_glued_refuted.
Print Assumptions C74_result_refuted.
Print Assumptions C74_lost_refuted.
