(** The client side: mirrored state (C45), menu selection (C46), request identifiers (C47); notifications survive the wire
    (C38). *)
From Coq Require Import String List Arith ZArith Lia Bool.
From Verif Require Import Base ListFacts Maps Fmt View Json JsonFacts Proto ProtoFacts PropProto Core Payload Conn.
Import ListNotations.

(** ** the parameters of the notifications survive the wire *)
Definition small (n : nat) : Prop := (Z.of_nat n <= u64_max)%Z.
Definition small_index (z : Z) : Prop := (i64_min <= z <= u64_max / 2)%Z.
Definition round {A} (enc : A -> json) (dec : json -> option A) (ok : A -> Prop) (n : nat) : Prop :=
  forall x, ok x -> dec (norm (enc x)) = Some x /\ plain_json (enc x) /\ levels (enc x) <= n.
Lemma round_vec {A} (enc : A -> json) dec ok n : round enc dec ok n -> round (enc_vec enc) (dec_vec dec) (Forall ok) (S n).
Proof.
  intros R l F. unfold enc_vec, dec_vec. cbn [norm plain_json levels]. split; [|split].
  - rewrite !map_map. transitivity (all_some (map Some l)); [|apply all_some_map]. f_equal. apply map_ext_in. intros e He. rewrite Forall_forall in F. now apply R, F.
  - apply folded_forall. apply Forall_map. rewrite Forall_forall in *. intros e He. now apply R, F.
  - rewrite map_map. apply le_n_S. apply list_max_map_le. rewrite Forall_forall in *. intros e He. now apply R, F.
Qed.
Definition any {A} (_ : A) : Prop := True.
Lemma any_all {A} (l : list A) : Forall any l.
Proof. apply Forall_forall. intros; exact I. Qed.
Lemma round_any {A} (enc : A -> json) dec n : round (enc_vec enc) dec (Forall any) n -> round (enc_vec enc) dec any n.
Proof. intros R x _. apply R, any_all. Qed.
Lemma round_fragment : round enc_fragment dec_fragment any 1.
Proof. intros [t f] _. split; [destruct f; reflexivity|]. split; [destruct f; cbn; auto|cbn; lia]. Qed.
Lemma round_rich : round enc_rich dec_rich any 2.
Proof. apply round_any, round_vec, round_fragment. Qed.
Lemma round_lines : round (enc_vec enc_rich) (dec_vec dec_rich) any 3.
Proof. apply round_any, round_vec, round_rich. Qed.
Lemma round_hint : round enc_hint dec_hint any 4.
Proof.
  intros l _. destruct (round_lines l I) as (D & P & L). unfold enc_hint, dec_hint. cbn [norm map fst snd fold_left plain_json levels fold_right].
  replace (fields _ _) with (Some [Some (norm (enc_vec enc_rich l))]) by reflexivity. split; auto. split; auto. cbn [map list_max fold_right]. lia.
Qed.
Lemma round_info : round enc_info dec_info any 1.
Proof. intros [a b c] _. split; [reflexivity|]. split; cbn; auto. Qed.
Ltac obj := cbn [norm map fst snd plain_json levels fold_right list_max].
Lemma norm_entry v t d : norm (JObj [(str "value", JStr v); (str "text", t); (str "description", d)]) = JObj [(str "description", norm d); (str "text", norm t); (str "value", JStr v)].
Proof. cbn [norm map fst snd]. generalize (norm d), (norm t). intros. reflexivity. Qed.
Lemma round_entry : round enc_entry dec_entry any 3.
Proof.
  intros [v t d] _. destruct (round_rich t I) as (D & P & L). unfold enc_entry, dec_entry. cbn [en_value en_text en_descr]. rewrite norm_entry. split.
  - replace (fields _ _) with (Some [Some (JStr v); Some (norm (enc_rich t)); Some (norm (match d with Some d => JStr d | None => JNull end))]) by (destruct d; reflexivity).
    cbn [dec_str]. rewrite D. destruct d; reflexivity.
  - obj. split; [destruct d; cbn; auto|]. destruct d; cbn [levels]; lia.
Qed.
Lemma norm_four (a b c d : string) x y z w : forall r,
  (forall x y z w, fold_left (fun m e => put (fst e) (snd e) m) [(str a, x); (str b, y); (str c, z); (str d, w)] [] = r x y z w) ->
  norm (JObj [(str a, x); (str b, y); (str c, z); (str d, w)]) = JObj (r (norm x) (norm y) (norm z) (norm w)).
Proof. intros r H. cbn [norm map fst snd]. now rewrite H. Qed.
Lemma round_menu : round enc_menu_info dec_menu_info any 5.
Proof.
  intros [c t s es] _. pose proof (round_any _ _ _ (round_vec _ _ _ _ round_entry)) as R. destruct (R es I) as (D & P & L). unfold enc_menu_info, dec_menu_info. cbn [me_command me_title me_search me_entries].
  rewrite (norm_four "command" "title" "search" "entries" _ _ _ _ (fun x y z w => [(str "command", x); (str "entries", w); (str "search", z); (str "title", y)])) by (intros; reflexivity). split.
  - cbn [norm]. replace (fields _ _) with (Some [Some (JStr c); Some (JStr t); Some (JStr s); Some (norm (enc_vec enc_entry es))]) by reflexivity. cbn [dec_str]. now rewrite D.
  - obj. split; auto. lia.
Qed.
Lemma norm_two (a b : string) x y : forall r,
  (forall x y, fold_left (fun m e => put (fst e) (snd e) m) [(str a, x); (str b, y)] [] = r x y) ->
  norm (JObj [(str a, x); (str b, y)]) = JObj (r (norm x) (norm y)).
Proof. intros r H. cbn [norm map fst snd]. now rewrite H. Qed.
Lemma round_status_item : round enc_status_item dec_status_item (fun s => small_index (st_index s)) 3.
Proof.
  intros [i t] S. destruct (round_rich t I) as (D & P & L). unfold enc_status_item, dec_status_item. cbn [st_index st_text] in *.
  rewrite (norm_two "index" "text" _ _ (fun x y => [(str "index", x); (str "text", y)])) by (intros; reflexivity). split.
  - unfold two. cbn [norm]. replace (fields _ _) with (Some [Some (JInt i); Some (norm (enc_rich t))]) by reflexivity. rewrite D. unfold dec_isize.
    destruct S as [S1 S2]. apply Z.leb_le in S1, S2. now rewrite S1, S2.
  - obj. split; [split; [|split; auto]|lia]. destruct S. assert (u64_max / 2 <= u64_max)%Z by (vm_compute; discriminate). lia.
Qed.
Lemma round_status : round enc_status dec_status (Forall (fun s => small_index (st_index s))) 4.
Proof. apply round_vec, round_status_item. Qed.
Lemma dec_enc_usize n : small n -> dec_usize (JInt (Z.of_nat n)) = Some n.
Proof. intro S. unfold dec_usize, small in *. apply Z.leb_le in S. rewrite S. replace (0 <=? Z.of_nat n)%Z with true by (symmetry; apply Z.leb_le; lia). cbn [andb]. now rewrite Nat2Z.id. Qed.
Lemma usize_plain n : small n -> (i64_min <= Z.of_nat n <= u64_max)%Z.
Proof. unfold small, i64_min. lia. Qed.
Lemma round_wlens : round enc_wlens dec_wlens (fun l => small (wl_first l)) 4.
Proof.
  intros [ls n] S. destruct (round_lines ls I) as (D & P & L). unfold enc_wlens, dec_wlens, enc_usize. cbn [wl_lines wl_first] in *.
  rewrite (norm_two "lines" "first_line_num" _ _ (fun x y => [(str "first_line_num", y); (str "lines", x)])) by (intros; reflexivity). split.
  - unfold two. cbn [norm]. replace (fields _ _) with (Some [Some (norm (enc_vec enc_rich ls)); Some (JInt (Z.of_nat n))]) by reflexivity. rewrite D. now rewrite dec_enc_usize.
  - obj. split; [split; [auto|split; auto; now apply usize_plain]|lia].
Qed.
Definition small_item (i : witem) : Prop := small (wi_start i) /\ small (wi_end i) /\ Forall (fun l => small (wl_first l)) (wi_lenses i).
Lemma round_witem : round enc_witem dec_witem small_item 6.
Proof.
  intros [b s e ls] (S1 & S2 & S3). cbn [wi_buffer wi_start wi_end wi_lenses] in *. destruct (round_vec _ _ _ _ round_wlens ls S3) as (D & P & L). unfold enc_witem, dec_witem, enc_usize. cbn [wi_buffer wi_start wi_end wi_lenses].
  rewrite (norm_four "buffer" "start" "end" "lenses" _ _ _ _ (fun x y z w => [(str "buffer", x); (str "end", z); (str "lenses", w); (str "start", y)])) by (intros; reflexivity). split.
  - cbn [norm]. replace (fields _ _) with (Some [Some (JStr b); Some (JInt (Z.of_nat s)); Some (JInt (Z.of_nat e)); Some (norm (enc_vec enc_wlens ls))]) by reflexivity. cbn [dec_str]. rewrite !dec_enc_usize, D by auto. reflexivity.
  - obj. split; [|lia]. repeat (split; auto); apply usize_plain; auto.
Qed.
Lemma round_view : round enc_view dec_view (Forall small_item) 7.
Proof. apply round_vec, round_witem. Qed.
Lemma norm_not_null j : (match j with JArr _ | JObj _ => True | _ => False end) -> norm j <> JNull.
Proof. destruct j; cbn; try tauto; discriminate. Qed.
(** a notification built from parameters, written and read back, gives the parameters back *)
Lemma notif_round {A} (enc : A -> json) dec ok n m x : round enc dec ok n -> n < 127 -> (match enc x with JArr _ | JObj _ => True | _ => False end) -> ok x ->
  exists e, parse_event (print_event (EvNotification (new_notification m (Some (enc x))))) = Some (EvNotification e) /\ nt_method e = m /\ param dec e = Some x.
Proof.
  intros R N J O. destruct (R x O) as (D & P & L). rewrite C38_notification; [|apply norm_wire; split; auto; lia].
  eexists. split; [reflexivity|]. cbn [new_notification nt_version nt_method nt_params option_map no_null]. split; auto. pose proof (norm_not_null _ J) as NN.
  unfold param. cbn [nt_params]. destruct (norm (enc x)) eqn:E; try congruence; cbn [params_of]; now rewrite D.
Qed.
(** [x], sent as a notification [m], is read by the client as a notification [m] with the parameter [x] *)
Definition delivered {A} (enc : A -> json) (dec : json -> option A) (m : text) (x : A) : Prop :=
  exists e, parse_event (print_event (EvNotification (new_notification m (Some (enc x))))) = Some (EvNotification e) /\ nt_method e = m /\ param dec e = Some x.
Theorem C38_payloads :
  (forall t, delivered enc_rich dec_rich (str "echo") t) /\ (forall l, delivered enc_hint dec_hint (str "hint") l) /\
  (forall i, delivered enc_info dec_info (str "info") i) /\ (forall m, delivered enc_menu_info dec_menu_info (str "menu") m) /\
  (forall s, Forall (fun i => small_index (st_index i)) s -> delivered enc_status dec_status (str "status") s) /\
  (forall v, Forall small_item v -> delivered enc_view dec_view (str "view") v).
Proof.
  repeat split; intros x; intros.
  - apply (notif_round _ _ _ _ _ _ round_rich); try lia; exact I.
  - apply (notif_round _ _ _ _ _ _ round_hint); try lia; exact I.
  - apply (notif_round _ _ _ _ _ _ round_info); try lia; exact I.
  - apply (notif_round _ _ _ _ _ _ round_menu); try lia; exact I.
  - apply (notif_round _ _ _ _ _ _ round_status); try lia; auto. exact I.
  - apply (notif_round _ _ _ _ _ _ round_view); try lia; auto. exact I.
Qed.
Print Assumptions C38_payloads.

(** ** C45 *)
(** what an event says about each part of the state; [None]: nothing *)
Definition named {T} (m : text) (dec : json -> option T) (e : event) : option T :=
  match e with EvNotification n => if eqb (nt_method n) m then param dec n else None | EvResponse _ => None end.
Definition says_echo (e : event) : option (option rich) :=
  match named (str "echo") dec_rich e, named (str "menu") dec_menu_info e with
  | Some t, _ => Some (Some t)
  | None, Some _ => Some None
  | None, None => None
  end.
Definition says_status : event -> option (list status_item) := named (str "status") dec_status.
Definition says_view : event -> option (list witem) := named (str "view") dec_view.
Definition says_info : event -> option info := named (str "info") dec_info.
Definition says_menu : event -> option menu_info := named (str "menu") dec_menu_info.
(** the last thing said *)
Fixpoint latest {A B} (f : A -> option B) (l : list A) (d : B) : B :=
  match l with [] => d | x :: r => latest f r (match f x with Some b => b | None => d end) end.
(** the events among the operations *)
Definition events_of (l : list cop) : list event := flat_map (fun o => match o with OpEvent e => [e] | _ => [] end) l.
(** what the operations say about the menu: a new one opens it, choosing or cancelling closes it *)
Definition says_open (o : cop) : option (option menu_info) :=
  match o with
  | OpEvent e => match says_menu e with Some m => Some (Some m) | None => None end
  | OpMenuSelect | OpCancel => Some None
  | _ => None
  end.
Definition shown_menu (m : cmenu) : menu_info := mkMenu (cm_command m) (cm_title m) (cm_search m) (cm_entries m).

Ltac named_tac m :=
  repeat match goal with
  | H : eqb m ?x = true |- _ => apply eqb_ok in H; subst m
  end.
Lemma update_spec s e :
  cs_echo (fst (event_update s e)) = match says_echo e with Some x => x | None => cs_echo s end /\
  cs_status (fst (event_update s e)) = match says_status e with Some x => x | None => cs_status s end /\
  cs_view (fst (event_update s e)) = match says_view e with Some x => x | None => cs_view s end /\
  cs_client (fst (event_update s e)) = match says_info e with Some i => in_client i | None => cs_client s end /\
  cs_session (fst (event_update s e)) = match says_info e with Some i => in_session i | None => cs_session s end /\
  cs_menu (fst (event_update s e)) = match says_menu e with Some m => Some (mkCM (me_command m) (me_title m) (me_search m) (me_entries m) 0) | None => cs_menu s end.
Proof.
  destruct e as [n|r]; [|cbn; auto 10]. unfold says_echo, says_status, says_view, says_info, says_menu, named, event_update.
  destruct (eqb (nt_method n) (str "echo")) eqn:E1.
  { apply eqb_ok in E1. rewrite E1. cbn - [param dec_rich]. destruct (param dec_rich n); cbn; auto 10. }
  destruct (eqb (nt_method n) (str "hint")) eqn:E2.
  { apply eqb_ok in E2. rewrite E2. cbn - [param dec_hint]. destruct (param dec_hint n); cbn; auto 10. }
  destruct (eqb (nt_method n) (str "info")) eqn:E3.
  { apply eqb_ok in E3. rewrite E3. cbn - [param dec_info]. destruct (param dec_info n); cbn; auto 10. }
  destruct (eqb (nt_method n) (str "menu")) eqn:E4.
  { apply eqb_ok in E4. rewrite E4. cbn - [param dec_menu_info]. destruct (param dec_menu_info n); cbn; auto 10. }
  destruct (eqb (nt_method n) (str "status")) eqn:E5.
  { apply eqb_ok in E5. rewrite E5. cbn - [param dec_status]. destruct (param dec_status n); cbn; auto 10. }
  destruct (eqb (nt_method n) (str "view")) eqn:E6; [|cbn; auto 10].
  destruct (param dec_view n); cbn; auto 10.
Qed.
Lemma send_state checked m p c c' : send checked m p c = Ok c' -> co_state c' = co_state c.
Proof. unfold send, request_id. destruct (i32_succ checked (co_next c)); cbn [bind]; try discriminate. intro X. injection X as <-. reflexivity. Qed.
(** what an operation does to the state *)
Definition opened (m : menu_info) : cmenu := mkCM (me_command m) (me_title m) (me_search m) (me_entries m) 0.
Lemma step_spec checked c o c' : cstep checked c o = Ok c' ->
  match o with
  | OpEvent e => co_state c' = fst (event_update (co_state c) e)
  | _ => cs_echo (co_state c') = cs_echo (co_state c) /\ cs_status (co_state c') = cs_status (co_state c) /\ cs_view (co_state c') = cs_view (co_state c) /\
         cs_client (co_state c') = cs_client (co_state c) /\ cs_session (co_state c') = cs_session (co_state c)
  end /\
  option_map shown_menu (cs_menu (co_state c')) = match says_open o with Some m => m | None => option_map shown_menu (cs_menu (co_state c)) end.
Proof.
  intro H. destruct o as [e| | | | | | | | |]; cbn [cstep says_open] in *; try (apply send_state in H; rewrite H; auto 10; fail).
  - injection H as <-. cbn [co_state]. split; auto. destruct (update_spec (co_state c) e) as (_ & _ & _ & _ & _ & ->). destruct (says_menu e) as [[]|]; reflexivity.
  - destruct (cs_menu (co_state c)) as [m|] eqn:E; [|injection H as <-; rewrite E; cbn; auto 10]. destruct (selected_item m) as [t| |]; cbn [bind] in H; try discriminate.
    destruct (send _ _ _ c) as [c1| |] eqn:Es; cbn [bind] in H; try discriminate. apply send_state in Es. injection H as <-. unfold set_menu. cbn. rewrite Es. auto 10.
  - destruct (cs_menu (co_state c)) as [m|] eqn:E; injection H as <-; [|rewrite E; cbn; auto 10]. cbn. unfold select_previous. destruct (0 <? cm_selected m); auto 10.
  - destruct (cs_menu (co_state c)) as [m|] eqn:E; [|injection H as <-; rewrite E; cbn; auto 10]. unfold select_next in H. destruct (cm_entries m) eqn:En.
    + destruct checked; cbn [bind] in H; try discriminate. injection H as <-. cbn. unfold shown_menu. cbn. rewrite En. auto 10.
    + destruct (_ <? _); cbn [bind] in H; injection H as <-; cbn; unfold shown_menu; cbn; rewrite ?En; auto 10.
  - injection H as <-. cbn. auto 10.
Qed.
Lemma run_spec checked l : forall c c', foldM (cstep checked) l c = Ok c' ->
  cs_echo (co_state c') = latest says_echo (events_of l) (cs_echo (co_state c)) /\ cs_status (co_state c') = latest says_status (events_of l) (cs_status (co_state c)) /\
  cs_view (co_state c') = latest says_view (events_of l) (cs_view (co_state c)) /\
  cs_client (co_state c') = latest (fun e => option_map in_client (says_info e)) (events_of l) (cs_client (co_state c)) /\
  cs_session (co_state c') = latest (fun e => option_map in_session (says_info e)) (events_of l) (cs_session (co_state c)) /\
  option_map shown_menu (cs_menu (co_state c')) = latest says_open l (option_map shown_menu (cs_menu (co_state c))).
Proof.
  induction l as [|o l IH]; intros c c' H; cbn [foldM] in H.
  - injection H as <-. cbn. auto 10.
  - destruct (cstep checked c o) as [c1| |] eqn:E; cbn [bind] in H; try discriminate. apply IH in H. destruct (step_spec _ _ _ _ E) as [S M]. cbn [latest]. rewrite <- M.
    destruct H as (H1 & H2 & H3 & H4 & H5 & H6). rewrite H1, H2, H3, H4, H5, H6. destruct o as [e| | | | | | | | |]; cbn [events_of flat_map app latest];
      try (destruct S as (-> & -> & -> & -> & ->); auto 10; fail).
    rewrite S. destruct (update_spec (co_state c) e) as (-> & -> & -> & -> & -> & _). destruct (says_info e); auto 10.
Qed.
(** The state holds the last thing said about each of its parts, whatever else the client did. *)
Theorem C45 : forall checked l c, crun checked l = Ok c ->
  cs_echo (co_state c) = latest says_echo (events_of l) None /\ cs_status (co_state c) = latest says_status (events_of l) [] /\
  cs_view (co_state c) = latest says_view (events_of l) [] /\
  cs_client (co_state c) = latest (fun e => option_map in_client (says_info e)) (events_of l) [] /\
  cs_session (co_state c) = latest (fun e => option_map in_session (says_info e)) (events_of l) [] /\
  option_map shown_menu (cs_menu (co_state c)) = latest says_open l None.
Proof. intros checked l c H. exact (run_spec checked l conn0 c H). Qed.
Print Assumptions C45.
(** The event reported for a message says what the message says, and nothing is reported only when it says nothing. *)
Definition says_hint : event -> option (list rich) := named (str "hint") dec_hint.
Theorem C45_reported : forall s e,
  match snd (event_update s e) with
  | CNoop => says_echo e = None /\ says_hint e = None /\ says_status e = None /\ says_view e = None /\ says_info e = None /\ says_menu e = None
  | CEcho t => says_echo e = Some (Some t)
  | CHint l => says_hint e = Some l
  | CInfo c d => exists i, says_info e = Some i /\ in_client i = c /\ in_session i = d
  | CMenu m => says_menu e = Some (shown_menu m) /\ cm_selected m = 0 /\ cs_menu (fst (event_update s e)) = Some m
  | CStatus x => says_status e = Some x
  | CView v => says_view e = Some v
  end.
Proof.
  intros s e. destruct e as [n|r]; [|cbn; auto 10]. unfold says_echo, says_hint, says_status, says_view, says_info, says_menu, named, event_update.
  destruct (eqb (nt_method n) (str "echo")) eqn:E1.
  { apply eqb_ok in E1. rewrite E1. cbn - [param dec_rich]. destruct (param dec_rich n); cbn; auto 10. }
  destruct (eqb (nt_method n) (str "hint")) eqn:E2.
  { apply eqb_ok in E2. rewrite E2. cbn - [param dec_hint]. destruct (param dec_hint n); cbn; auto 10. }
  destruct (eqb (nt_method n) (str "info")) eqn:E3.
  { apply eqb_ok in E3. rewrite E3. cbn - [param dec_info]. destruct (param dec_info n); cbn; eauto 10. }
  destruct (eqb (nt_method n) (str "menu")) eqn:E4.
  { apply eqb_ok in E4. rewrite E4. cbn - [param dec_menu_info]. destruct (param dec_menu_info n) as [[]|]; cbn; auto 10. }
  destruct (eqb (nt_method n) (str "status")) eqn:E5.
  { apply eqb_ok in E5. rewrite E5. cbn - [param dec_status]. destruct (param dec_status n); cbn; auto 10. }
  destruct (eqb (nt_method n) (str "view")) eqn:E6.
  { destruct (param dec_view n); cbn; auto 10. }
  cbn. auto 10.
Qed.
Print Assumptions C45_reported.
(** Responses, unknown notifications and notifications whose parameters do not decode change nothing. *)
Theorem C45_ignored : forall s e, 
  (match e with
   | EvResponse _ => True
   | EvNotification n => ~ In (nt_method n) [str "echo"; str "info"; str "menu"; str "status"; str "view"] \/
       nt_method n = str "echo" /\ param dec_rich n = None \/ nt_method n = str "info" /\ param dec_info n = None \/ nt_method n = str "menu" /\ param dec_menu_info n = None \/
       nt_method n = str "status" /\ param dec_status n = None \/ nt_method n = str "view" /\ param dec_view n = None
   end) -> fst (event_update s e) = s.
Proof.
  intros s [n|r] H; [|reflexivity]. unfold event_update.
  assert (forall m, In m [str "echo"; str "info"; str "menu"; str "status"; str "view"] -> nt_method n = m ->
    (nt_method n = str "echo" /\ param dec_rich n = None \/ nt_method n = str "info" /\ param dec_info n = None \/ nt_method n = str "menu" /\ param dec_menu_info n = None \/
       nt_method n = str "status" /\ param dec_status n = None \/ nt_method n = str "view" /\ param dec_view n = None)) as Q.
  { intros m Im Em. destruct H as [H|H]; auto. exfalso. apply H. now rewrite Em. }
  destruct (eqb (nt_method n) (str "echo")) eqn:E1; [apply eqb_ok in E1; rewrite E1 in Q; specialize (Q (str "echo") ltac:(cbn [In]; auto 10) eq_refl); destruct Q as [[_ ->]|[[X _]|[[X _]|[[X _]|[X _]]]]]; [reflexivity|discriminate..]|].
  destruct (eqb (nt_method n) (str "hint")) eqn:E2; [now destruct (param dec_hint n)|].
  destruct (eqb (nt_method n) (str "info")) eqn:E3; [apply eqb_ok in E3; rewrite E3 in Q; specialize (Q (str "info") ltac:(cbn [In]; auto 10) eq_refl); destruct Q as [[X _]|[[_ ->]|[[X _]|[[X _]|[X _]]]]]; [discriminate|reflexivity|discriminate..]|].
  destruct (eqb (nt_method n) (str "menu")) eqn:E4; [apply eqb_ok in E4; rewrite E4 in Q; specialize (Q (str "menu") ltac:(cbn [In]; auto 10) eq_refl); destruct Q as [[X _]|[[X _]|[[_ ->]|[[X _]|[X _]]]]]; try discriminate; reflexivity|].
  destruct (eqb (nt_method n) (str "status")) eqn:E5; [apply eqb_ok in E5; rewrite E5 in Q; specialize (Q (str "status") ltac:(cbn [In]; auto 10) eq_refl); destruct Q as [[X _]|[[X _]|[[X _]|[[_ ->]|[X _]]]]]; try discriminate; reflexivity|].
  destruct (eqb (nt_method n) (str "view")) eqn:E6; [apply eqb_ok in E6; rewrite E6 in Q; specialize (Q (str "view") ltac:(cbn [In]; auto 10) eq_refl); destruct Q as [[X _]|[[X _]|[[X _]|[[X _]|[_ ->]]]]]; try discriminate; reflexivity|].
  reflexivity.
Qed.
Print Assumptions C45_ignored.
(** the core's notifications, from the server to the client's state *)
Definition flat (t : rich) : list (nat * bool) := flat_map (fun f => map (fun b => (b, match fr_face f with FSelection => true | _ => false end)) (fr_text f)) t.
Lemma runs_flat l : flat (runs l) = l.
Proof.
  induction l as [|[b s] r IH]; auto. cbn [runs]. destruct (runs r) as [|[t g] q]; [rewrite <- IH; destruct s; reflexivity|].
  destruct (Bool.eqb s _) eqn:E; rewrite <- IH; [|destruct s; reflexivity]. apply Bool.eqb_prop in E. subst s. reflexivity.
Qed.
Definition small_pitem (i : pitem) : Prop := small (pi_start i) /\ small (pi_end i) /\ Forall (fun l => small (pl_first l)) (pi_lenses i).
Definition small_notif (n : notif) : Prop := match n with NView l => Forall small_pitem l | _ => True end.
(** a client that receives a notification of the core shows it: the text with its face, or each line with the same bytes highlighted *)
Theorem C45_delivered : forall session n, small_notif n -> exists e, parse_event (print_event (EvNotification (wire_notif session n))) = Some e /\ forall s,
  match n with
  | NEcho t err => cs_echo (fst (event_update s e)) = Some [mkFrag t (if err then FError else FDefault)]
  | NInfo c d => cs_client (fst (event_update s e)) = c /\ cs_session (fst (event_update s e)) = session
  | NView l => map (fun i => mkPI (wi_buffer i) (wi_start i) (wi_end i) (map (fun x => mkPL (map flat (wl_lines x)) (wl_first x)) (wi_lenses i))) (cs_view (fst (event_update s e))) = l
  end.
Proof.
  intros session n S. destruct n as [t err|c d|l]; cbn [wire_notif].
  - destruct C38_payloads as (H & _). destruct (H [mkFrag t (if err then FError else FDefault)]) as (e & P & M & D). eexists. split; [exact P|]. intro s.
    destruct (update_spec s (EvNotification e)) as (-> & _). unfold says_echo, named. rewrite M, eqb_refl, D. reflexivity.
  - destruct C38_payloads as (_ & _ & H & _). destruct (H (mkInfo c session d)) as (e & P & M & D). eexists. split; [exact P|]. intro s.
    destruct (update_spec s (EvNotification e)) as (_ & _ & _ & -> & -> & _). unfold says_info, named. rewrite M, eqb_refl, D. auto.
  - destruct C38_payloads as (_ & _ & _ & _ & _ & H). destruct (H (map wire_item l)) as (e & P & M & D).
    { apply Forall_map. eapply Forall_impl; [|exact S]. intros i (A & B & C). repeat split; auto. cbn [wire_item wi_lenses]. apply Forall_map. exact C. }
    eexists. split; [exact P|]. intro s. destruct (update_spec s (EvNotification e)) as (_ & _ & -> & _). unfold says_view, named. rewrite M, eqb_refl, D.
    rewrite map_map. transitivity (map (fun i : pitem => i) l); [|apply map_id]. apply map_ext. intros [b x y ls]. cbn. f_equal. rewrite map_map. transitivity (map (fun i : plens => i) ls); [|apply map_id].
    apply map_ext. intros [lines f]. cbn. f_equal. rewrite map_map. transitivity (map (fun i : list (nat * bool) => i) lines); [|apply map_id]. apply map_ext. apply runs_flat.
Qed.
Print Assumptions C45_delivered.

(** ** C46 *)
Definition menus_filled (l : list cop) : Prop := forall e m, In (OpEvent e) l -> says_menu e = Some m -> me_entries m <> [].
Definition inside (m : option cmenu) : Prop := match m with Some m => cm_selected m < length (cm_entries m) | None => True end.
(** the requests an operation may send *)
Definition sends (o : cop) : nat := match o with OpEvent _ | OpPrevious | OpNext | OpCancel => 0 | _ => 1 end.
Definition limit : Z := 2147483647.
Lemma send_ok checked m p c : (co_next c < limit)%Z \/ checked = false -> exists c', send checked m p c = Ok c' /\ co_state c' = co_state c.
Proof.
  intro H. unfold send, request_id, i32_succ. change 2147483647%Z with limit. destruct (co_next c <? limit)%Z eqn:E; cbn [bind]; [eauto|]. apply Z.ltb_ge in E.
  destruct H as [H| ->]; [lia|]. cbn [bind]. eauto.
Qed.
Lemma step_inside checked c o c' : (forall e m, o = OpEvent e -> says_menu e = Some m -> me_entries m <> []) -> inside (cs_menu (co_state c)) -> cstep checked c o = Ok c' -> inside (cs_menu (co_state c')).
Proof.
  intros F I H. destruct o as [e| | | | | | | | |]; cbn [cstep] in H; try (apply send_state in H; now rewrite H).
  - injection H as <-. cbn [co_state]. destruct (update_spec (co_state c) e) as (_ & _ & _ & _ & _ & ->). destruct (says_menu e) as [m|] eqn:E; auto. cbn. specialize (F e m eq_refl E). destruct (me_entries m); [congruence|cbn; lia].
  - destruct (cs_menu (co_state c)) as [m|] eqn:E; [|injection H as <-; now rewrite E]. destruct (selected_item m) as [t| |]; cbn [bind] in H; try discriminate.
    destruct (send _ _ _ c) as [c1| |] eqn:Es; cbn [bind] in H; try discriminate. injection H as <-. exact Logic.I.
  - destruct (cs_menu (co_state c)) as [m|] eqn:E; injection H as <-; [|now rewrite E]. cbn. unfold select_previous. cbn in I. destruct (0 <? cm_selected m); cbn; lia.
  - destruct (cs_menu (co_state c)) as [m|] eqn:E; [|injection H as <-; now rewrite E]. unfold select_next in H. cbn in I. destruct (cm_entries m) eqn:En; [cbn in I; lia|]. rewrite <- En in *.
    destruct (Nat.ltb_spec (cm_selected m) (length (cm_entries m) - 1)); cbn [bind] in H; injection H as <-; cbn; lia.
  - injection H as <-. exact Logic.I.
Qed.
(** The selected entry exists, as long as the server never shows a menu without entries. *)
Theorem C46_partial : forall checked l c, menus_filled l -> crun checked l = Ok c -> forall m, cs_menu (co_state c) = Some m ->
  exists e, nth_error (cm_entries m) (cm_selected m) = Some e.
Proof.
  intros checked l c F H m Em. assert (inside (cs_menu (co_state c))) as N.
  { unfold crun in H. assert (inside (cs_menu (co_state conn0))) as I0 by exact I. revert F I0 H. generalize conn0 as c0. induction l as [|o l IH]; intros c0 F I0 H; cbn [foldM] in H; [injection H as <-; auto|].
    destruct (cstep checked c0 o) as [c1| |] eqn:E; cbn [bind] in H; try discriminate. apply (IH c1); auto.
    - intros e m' Hi. apply F. now right.
    - eapply step_inside; eauto. intros e m' -> Hs. apply (F e); auto. now left. }
  rewrite Em in N. cbn in N. destruct (nth_error (cm_entries m) (cm_selected m)) eqn:E; [eauto|]. apply nth_error_None in E. lia.
Qed.
Print Assumptions C46_partial.
Lemma sends_next checked c o c' : cstep checked c o = Ok c' -> co_next c' = co_next c \/ sends o = 1 /\ i32_succ checked (co_next c) = Ok (co_next c').
Proof.
  assert (forall m p c', send checked m p c = Ok c' -> i32_succ checked (co_next c) = Ok (co_next c')) as S.
  { intros m p c1. unfold send, request_id. destruct (i32_succ checked (co_next c)); cbn [bind]; try discriminate. intro X. injection X as <-. reflexivity. }
  intro H. destruct o as [e| | | | | | | | |]; cbn [cstep sends] in *; try (right; split; [reflexivity|eapply S; exact H]; fail).
  - injection H as <-. now left.
  - destruct (cs_menu (co_state c)) as [m|]; [|injection H as <-; now left]. destruct (selected_item m) as [t| |]; cbn [bind] in H; try discriminate.
    destruct (send _ _ _ c) as [c1| |] eqn:Es; cbn [bind] in H; try discriminate. injection H as <-. right. split; auto. apply S in Es. exact Es.
  - destruct (cs_menu (co_state c)) as [m|]; injection H as <-; now left.
  - destruct (cs_menu (co_state c)) as [m|]; [|injection H as <-; now left]. destruct (select_next checked m); cbn [bind] in H; try discriminate. injection H as <-. now left.
  - injection H as <-. now left.
Qed.
(** Then no action panics. *)
Theorem C46_total : forall checked l, menus_filled l -> (Z.of_nat (list_sum (map sends l)) <= limit)%Z \/ checked = false -> exists c, crun checked l = Ok c.
Proof.
  intros checked l F B. unfold crun. assert (inside (cs_menu (co_state conn0))) as I0 by exact I.
  assert ((0 <= co_next conn0)%Z /\ (co_next conn0 + Z.of_nat (list_sum (map sends l)) <= limit)%Z \/ checked = false) as B' by (destruct B; auto; left; cbn; lia). clear B. revert F I0 B'. generalize conn0 as c.
  induction l as [|o l IH]; intros c F I0 B; cbn [foldM]; [eauto|]. assert (exists c1, cstep checked c o = Ok c1) as (c1 & E).
  { assert (sends o = 1 -> (co_next c < limit)%Z \/ checked = false) as L. { intro S1. destruct B as [[B0 B]|B]; auto. left. cbn [map list_sum fold_right] in B. change (fold_right Nat.add 0 (map sends l)) with (list_sum (map sends l)) in B. lia. }
    destruct o as [e| | | | | | | | |]; cbn [cstep sends] in *; try (destruct (send_ok checked (str "x") None c (L eq_refl)) as (? & _); edestruct send_ok as (c1 & E & _); [exact (L eq_refl)|exists c1; exact E]; fail).
    - eauto.
    - destruct (cs_menu (co_state c)) as [m|] eqn:Em; [|eauto]. cbn in I0. unfold selected_item, index. destruct (nth_error (cm_entries m) (cm_selected m)) as [x|] eqn:En; [|apply nth_error_None in En; lia].
      cbn [unwrap bind]. edestruct send_ok as (c1 & E & _); [exact (L eq_refl)|rewrite E; cbn [bind]; eauto].
    - destruct (cs_menu (co_state c)); eauto.
    - destruct (cs_menu (co_state c)) as [m|] eqn:Em; [|eauto]. cbn in I0. unfold select_next. destruct (cm_entries m) eqn:En; [cbn in I0; lia|]. destruct (_ <? _); cbn [bind]; eauto.
    - eauto. }
  rewrite E. cbn [bind]. apply IH.
  - intros e m Hi. apply F. now right.
  - eapply step_inside; eauto. intros e m -> Hs. apply (F e); auto. now left.
  - destruct B as [[B0 B]|B]; auto. left. cbn [map list_sum fold_right] in B. change (fold_right Nat.add 0 (map sends l)) with (list_sum (map sends l)) in B.
    destruct (sends_next _ _ _ _ E) as [-> | [S1 S]]; [lia|]. unfold i32_succ in S. change 2147483647%Z with limit in S. destruct (Z.ltb_spec (co_next c) limit); [injection S as S; lia|lia].
Qed.
Print Assumptions C46_total.
(** Choosing sends the value of the selected entry, or the typed text when it has none, and closes the menu; nothing else is sent. *)
Theorem C46_choice : forall checked c m e, cs_menu (co_state c) = Some m -> nth_error (cm_entries m) (cm_selected m) = Some e ->
  forall c', cstep checked c OpMenuSelect = Ok c' ->
  cs_menu (co_state c') = None /\
  exists r, co_sent c' = co_sent c ++ [r] /\ rq_method r = str "menu-select" /\
    params_of dec_select (rq_params r) = Some (Some (mkSelP (cm_command m) (if eqb (en_value e) [] then cm_search m else en_value e))).
Proof.
  intros checked c m e Em En c' H. cbn [cstep] in H. rewrite Em in H. unfold selected_item, index in H. rewrite En in H. cbn [unwrap bind] in H.
  unfold send, request_id in H. destruct (i32_succ checked (co_next c)); cbn [bind] in H; try discriminate. injection H as <-. cbn [set_menu co_state cs_menu co_sent]. split; auto. eexists. split; [reflexivity|]. split; auto.
  cbn [new_request rq_params option_map]. destruct (en_value e) as [|x v]; reflexivity.
Qed.
Print Assumptions C46_choice.
(** Next and previous move by one entry and stop at the ends. *)
Theorem C46_moves : forall checked c m, cs_menu (co_state c) = Some m -> cm_selected m < length (cm_entries m) ->
  (exists c', cstep checked c OpNext = Ok c' /\ option_map cm_selected (cs_menu (co_state c')) = Some (min (S (cm_selected m)) (length (cm_entries m) - 1)) /\ co_sent c' = co_sent c) /\
  (exists c', cstep checked c OpPrevious = Ok c' /\ option_map cm_selected (cs_menu (co_state c')) = Some (cm_selected m - 1) /\ co_sent c' = co_sent c).
Proof.
  intros checked c m Em L. cbn [cstep]. rewrite Em. split.
  - unfold select_next. destruct (cm_entries m) eqn:En; [cbn in L; lia|]. rewrite <- En in *. destruct (Nat.ltb_spec (cm_selected m) (length (cm_entries m) - 1)); cbn [bind]; eexists; (split; [reflexivity|]); cbn [set_menu co_state cs_menu option_map cm_selected co_sent]; split; auto; f_equal; lia.
  - eexists. split; [reflexivity|]. cbn [set_menu co_state cs_menu option_map co_sent]. split; auto. unfold select_previous. destruct (Nat.ltb_spec 0 (cm_selected m)); cbn [cm_selected]; f_equal; lia.
Qed.
Print Assumptions C46_moves.
(** A menu without entries (a search that matches nothing): choosing panics, and so does "next" in the debug profile. *)
Theorem C46_refuted : forall m, me_entries m = [] -> exists e, says_menu e = Some m /\ crun true [OpEvent e; OpNext] = Panic "attempt to subtract with overflow" /\
  (forall checked, crun checked [OpEvent e; OpMenuSelect] = Panic "index out of bounds") /\
  exists c, crun false [OpEvent e; OpNext] = Ok c /\ option_map cm_selected (cs_menu (co_state c)) = Some 1.
Proof.
  intros m Em. destruct C38_payloads as (_ & _ & _ & H & _). destruct (H m) as (n & _ & M & D). exists (EvNotification n).
  assert (says_menu (EvNotification n) = Some m) as S by (unfold says_menu, named; now rewrite M, eqb_refl). split; auto.
  unfold crun. cbn [foldM cstep bind]. assert (cs_menu (fst (event_update (co_state conn0) (EvNotification n))) = Some (opened m)) as E by (destruct (update_spec (co_state conn0) (EvNotification n)) as (_ & _ & _ & _ & _ & ->); now rewrite S).
  cbn [co_state]. rewrite E. unfold select_next, selected_item, index. cbn [opened cm_entries cm_selected]. rewrite Em. cbn [nth_error unwrap bind]. split; auto. split; auto. eexists. split; [reflexivity|]. reflexivity.
Qed.
Print Assumptions C46_refuted.

(** ** C47 *)
Definition wrap (z : Z) : Z := ((z + 2147483648) mod 4294967296 - 2147483648)%Z.
Definition numbered (checked : bool) (c : conn) : Prop :=
  map rq_id (co_sent c) = map (fun k => IdNum (wrap (Z.of_nat k))) (seq 0 (length (co_sent c))) /\ co_next c = wrap (Z.of_nat (length (co_sent c))) /\
  (checked = true -> (Z.of_nat (length (co_sent c)) <= limit)%Z).
Lemma wrap_small z : (-2147483648 <= z <= 2147483647)%Z -> wrap z = z.
Proof. intro H. unfold wrap. rewrite Z.mod_small by lia. lia. Qed.
Lemma wrap_succ z : wrap (z + 1) = if (wrap z <? 2147483647)%Z then (wrap z + 1)%Z else (-2147483648)%Z.
Proof.
  unfold wrap. pose proof (Z.mod_pos_bound (z + 2147483648) 4294967296 ltac:(lia)) as B. pose proof (Z.div_mod (z + 2147483648) 4294967296 ltac:(lia)) as D.
  set (r := ((z + 2147483648) mod 4294967296)%Z) in *. set (q := ((z + 2147483648) / 4294967296)%Z) in *. destruct (Z.ltb_spec (r - 2147483648) 2147483647).
  - replace ((z + 1 + 2147483648) mod 4294967296)%Z with (r + 1)%Z; [lia|]. apply Z.mod_unique with q; lia.
  - replace ((z + 1 + 2147483648) mod 4294967296)%Z with 0%Z; [lia|]. apply Z.mod_unique with (q + 1)%Z; lia.
Qed.
Lemma send_numbered checked m p c c' : numbered checked c -> send checked m p c = Ok c' -> numbered checked c'.
Proof.
  intros (N1 & N2 & N3) H. unfold send, request_id in H. destruct (i32_succ checked (co_next c)) as [n| |] eqn:E; cbn [bind] in H; try discriminate. injection H as <-.
  unfold numbered. cbn [co_sent co_next]. rewrite app_length, map_app, N1. cbn [length map new_request rq_id]. rewrite Nat.add_1_r, seq_S, map_app. cbn [map]. rewrite N2. split; auto.
  rewrite Nat2Z.inj_succ. unfold Z.succ. rewrite wrap_succ. unfold i32_succ in E. rewrite N2 in E. destruct (wrap (Z.of_nat (length (co_sent c))) <? 2147483647)%Z eqn:L.
  - injection E as <-. split; auto. intro C. specialize (N3 C). apply Z.ltb_lt in L. unfold limit in *. rewrite wrap_small in L by lia. lia.
  - destruct checked; [discriminate|]. injection E as <-. split; auto. discriminate.
Qed.
Lemma step_numbered checked c o c' : numbered checked c -> cstep checked c o = Ok c' -> numbered checked c'.
Proof.
  intros N H. destruct o as [e| | | | | | | | |]; cbn [cstep] in H; try (eapply send_numbered; eauto; fail).
  - injection H as <-. exact N.
  - destruct (cs_menu (co_state c)) as [m|]; [|injection H as <-; auto]. destruct (selected_item m) as [t| |]; cbn [bind] in H; try discriminate.
    destruct (send _ _ _ c) as [c1| |] eqn:Es; cbn [bind] in H; try discriminate. injection H as <-. apply send_numbered in Es; auto.
  - destruct (cs_menu (co_state c)) as [m|]; injection H as <-; exact N.
  - destruct (cs_menu (co_state c)) as [m|]; [|injection H as <-; auto]. destruct (select_next checked m); cbn [bind] in H; try discriminate. injection H as <-. exact N.
  - injection H as <-. exact N.
Qed.
Lemma run_numbered checked l c : crun checked l = Ok c -> numbered checked c.
Proof.
  unfold crun. assert (numbered checked conn0) as N by (split; [reflexivity|split; [reflexivity|cbn; unfold limit; lia]]). revert N. generalize conn0 as c0. induction l as [|o l IH]; intros c0 N H; cbn [foldM] in H; [injection H as <-; auto|].
  destruct (cstep checked c0 o) as [c1| |] eqn:E; cbn [bind] in H; try discriminate. apply (IH c1); auto. exact (step_numbered _ _ _ _ N E).
Qed.
(** The requests sent on a connection carry pairwise distinct identifiers: always in the debug profile, up to 2^32 requests otherwise. *)
Theorem C47_partial : forall checked l c, crun checked l = Ok c -> checked = true \/ (Z.of_nat (length (co_sent c)) <= 4294967296)%Z -> NoDup (map rq_id (co_sent c)).
Proof.
  intros checked l c H B. destruct (run_numbered _ _ _ H) as (N1 & _ & N3). rewrite N1. assert (Z.of_nat (length (co_sent c)) <= 4294967296)%Z as L by (destruct B as [B|B]; auto; specialize (N3 B); unfold limit in N3; lia).
  clear - L. assert (forall n s, (Z.of_nat (s + n) <= 4294967296)%Z -> NoDup (map (fun k => IdNum (wrap (Z.of_nat k))) (seq s n))) as G; [|now apply G].
  induction n as [|n IH]; intros s B; cbn [seq map]; constructor; [|apply IH; lia]. intro I. apply in_map_iff in I. destruct I as (k & E & Ik). apply in_seq in Ik. injection E as E. unfold wrap in E.
  assert ((Z.of_nat k + 2147483648) mod 4294967296 = (Z.of_nat s + 2147483648) mod 4294967296)%Z as M by lia.
  pose proof (Z.div_mod (Z.of_nat k + 2147483648) 4294967296 ltac:(lia)) as D1. pose proof (Z.div_mod (Z.of_nat s + 2147483648) 4294967296 ltac:(lia)) as D2. rewrite M in D1.
  set (q1 := ((Z.of_nat k + 2147483648) / 4294967296)%Z) in *. set (q2 := ((Z.of_nat s + 2147483648) / 4294967296)%Z) in *. lia.
Qed.
Print Assumptions C47_partial.
Lemma seq_nth_error s n k : k < n -> nth_error (seq s n) k = Some (s + k).
Proof. revert s n. induction k as [|k IH]; intros s [|n] H; try lia; cbn [seq nth_error]; [f_equal; lia|]. rewrite IH by lia. f_equal. lia. Qed.
Lemma repeat_quit : forall n c0, exists c, foldM (cstep false) (repeat OpQuit n) c0 = Ok c /\ length (co_sent c) = length (co_sent c0) + n.
Proof.
  induction n as [|n IH]; intro c0; cbn [repeat foldM]; [exists c0; split; auto; lia|]. destruct (send_ok false (str "quit") (Some JNull) c0 (or_intror eq_refl)) as (c1 & E & _). cbn [cstep]. rewrite E. cbn [bind].
  destruct (IH c1) as (c & Ec & L). exists c. split; auto. rewrite L. unfold send, request_id in E. destruct (i32_succ false (co_next c0)); cbn [bind] in E; try discriminate. injection E as <-. cbn [co_sent]. rewrite app_length. cbn [length]. lia.
Qed.
Lemma collide n : Z.of_nat n = 4294967296%Z -> exists l c, crun false l = Ok c /\ ~ NoDup (map rq_id (co_sent c)).
Proof.
  intro Z0. destruct (repeat_quit (S n) conn0) as (c & E & L). exists (repeat OpQuit (S n)), c. split; auto. destruct (run_numbered _ _ _ E) as (N & _). rewrite N. clear N. change (length (co_sent conn0) + S n) with (S n) in L.
  rewrite L. intro D. rewrite NoDup_nth_error in D. assert (0 = n) as X; [|subst n; discriminate]. apply D; [rewrite map_length, seq_length; lia|].
  rewrite !nth_error_map. rewrite !seq_nth_error by lia. cbn [option_map Nat.add]. rewrite Z0. reflexivity.
Qed.
(** In the release profile they repeat after 2^32 requests. *)
Theorem C47_refuted : exists l c, crun false l = Ok c /\ ~ NoDup (map rq_id (co_sent c)).
Proof. exact (collide (Z.to_nat 4294967296) (Z2Nat.id 4294967296 (Zle_bool_imp_le 0 4294967296 eq_refl))). Qed.
Print Assumptions C47_refuted.

(** a session: a menu arrives, the second entry is chosen; then an echo *)
Definition demo_menu : menu_info := mkMenu (str "open") (str "file") (str "m") [mkEntry (str "a.m") [mkFrag (str "a.") FDefault; mkFrag (str "m") FMatch] None; mkEntry (str "b.m") [mkFrag (str "b.m") FDefault] (Some (str "x"))].
Definition demo_event (n : notification) : cop := match parse_event (print_event (EvNotification n)) with Some e => OpEvent e | None => OpQuit end.
Definition demo_ops : list cop :=
  [OpMenu (str "open") (str "m"); demo_event (new_notification (str "menu") (Some (enc_menu_info demo_menu))); OpNext; OpNext; OpMenuSelect;
   demo_event (wire_notif (str "s") (NEcho (str "hello") true)); demo_event (wire_notif (str "s") (NView [mkPI (str "b") 1 1 [mkPL [[(97, false); (98, true)]] 1]]))].
Example C46_demo : menus_filled (firstn 3 demo_ops) /\
  match crun true demo_ops with
  | Ok c => cs_echo (co_state c) = Some [mkFrag (str "hello") FError] /\ cs_menu (co_state c) = None /\ map rq_id (co_sent c) = [IdNum 0; IdNum 1] /\
      map (fun r => params_of dec_select (rq_params r)) (skipn 1 (co_sent c)) = [Some (Some (mkSelP (str "open") (str "b.m")))] /\
      cs_view (co_state c) = [mkWI (str "b") 1 1 [mkWL [[mkFrag [97] FDefault; mkFrag [98] FSelection]] 1]]
  | _ => False
  end.
Proof.
  split; [|vm_compute; auto 10]. intros e m H. cbn [demo_ops firstn In] in H. destruct H as [H|[H|[H|[]]]]; try discriminate.
  assert (exists x, demo_event (new_notification (str "menu") (Some (enc_menu_info demo_menu))) = OpEvent x /\ says_menu x = Some demo_menu) as (x & X & Y) by (eexists; split; vm_compute; reflexivity).
  rewrite X in H. injection H as <-. rewrite Y. intro Z. injection Z as <-. discriminate.
Qed.
