(** C90: the messages have the shapes of JSON-RPC 2.0 and of the protocol. *)
From Coq Require Import String List Arith ZArith Lia Bool Permutation.
From Verif Require Import Base ListFacts PieceTable Coords Utf8 Diff Selection Maps StackMap Utf8Facts Fmt Buffer View ViewFacts Json JsonFacts Proto Core Payload Menu Editor EditorSpec Conn Server System ShapeSpec.
Import ListNotations.

(** ** sorting the members of an object keeps its shape *)
Lemma put_perm k v l : ~ In k (map fst l) -> Permutation (put k v l) ((k, v) :: l).
Proof.
  induction l as [|[k' v'] l IH]; intro N; cbn [put]; [reflexivity|]. cbn [map fst In] in N. destruct (text_cmp k k') eqn:E.
  - apply text_cmp_eq in E. subst. tauto.
  - reflexivity.
  - rewrite IH by tauto. apply perm_swap.
Qed.
Lemma put_all l : forall m, NoDup (map fst (m ++ l)) -> Permutation (fold_left (fun m (e : text * json) => put (fst e) (snd e) m) l m) (m ++ l).
Proof.
  induction l as [|[k v] l IH]; intros m N; cbn [fold_left fst snd]; [now rewrite app_nil_r|].
  assert (Permutation (put k v m) ((k, v) :: m)) as P.
  { apply put_perm. rewrite map_app in N. cbn [map fst] in N. apply NoDup_remove_2 in N. intro I. apply N, in_app_iff. now left. }
  rewrite IH.
  - rewrite P. apply Permutation_middle.
  - rewrite map_app. eapply Permutation_NoDup; [|exact N]. rewrite map_app. cbn [map fst]. rewrite (Permutation_map fst P). cbn [map fst app]. symmetry. apply Permutation_middle.
Qed.
Lemma norm_members l : NoDup (map fst l) -> exists l', norm (JObj l) = JObj l' /\ Permutation l' (map (fun e => (fst e, norm (snd e))) l).
Proof.
  intro N. cbn [norm]. eexists. split; [reflexivity|]. apply (put_all _ []). cbn [app]. rewrite map_map. exact N.
Qed.
Lemma has_norm j : forall s, has s j -> has s (norm j).
Proof.
  induction j as [|b|z|x|x|l IH|l IH] using json_ind'; intro s; induction s as [| | | | | |t|t|a IHa b' IHb| |a IHa|ms]; intro H; try exact H;
    try (now (destruct H as [H|H]; [left; auto|right; auto])); try discriminate H; try (destruct H as (? & X & _); discriminate X); try (destruct H as (? & X); discriminate X).
  - exists (map norm l), []. now left.
  - destruct H as (l0 & E & F). injection E as <-. exists (map norm l). split; [reflexivity|]. apply Forall_map. rewrite Forall_forall in *. intros x I. exact (IH x I a (F x I)).
  - destruct H as (k & m & [E|E]); [discriminate|]. cbn [norm]. eexists [], _. right. reflexivity.
  - destruct H as (l0 & E & N & I & F). injection E as <-. destruct (norm_members l N) as (l' & -> & P).
    assert (Permutation (map fst l') (map fst l)) as Q. { rewrite P, map_map. reflexivity. }
    exists l'. split; [reflexivity|]. split; [eapply Permutation_NoDup; [symmetry; exact Q|exact N]|]. split.
    + intros k K. apply I. eapply Permutation_in; [exact Q|exact K].
    + clear N I. induction ms as [|[n [must a]] ms IHm]; [exact Logic.I|]. destruct F as (F1 & F2 & F3). split; [|split; [|exact (IHm F3)]].
      * intro M. eapply Permutation_in; [symmetry; exact Q|exact (F1 M)].
      * intros v V. apply (Permutation_in _ P) in V. apply in_map_iff in V. destruct V as ([n' w] & E & V). cbn [fst snd] in E. injection E as -> <-. rewrite Forall_forall in IH. apply (IH (n, w) V). now apply F2.
Qed.

(** ** the encoders *)
Lemma has_vec {A} (enc : A -> json) s l : (forall x, has s (enc x)) -> has (ListOf s) (enc_vec enc l).
Proof. intro H. eexists. split; [reflexivity|]. apply Forall_map, Forall_forall. auto. Qed.
Lemma has_map {A} (enc : A -> json) s l : (forall x, has s (enc x)) -> has (ListOf s) (JArr (map enc l)).
Proof. apply (has_vec enc). Qed.
Definition fits_member (m : text * (bool * shape)) (e : text * json) : Prop := fst e = fst m /\ has (snd (snd m)) (snd e).
Lemma same_names ms l : Forall2 fits_member ms l -> map fst l = map fst ms.
Proof. induction 1 as [|m e ms l [E _] F IH]; cbn [map]; congruence. Qed.
Lemma fits_each ms l : Forall2 fits_member ms l -> NoDup (map fst ms) -> forall n must a v, In (n, (must, a)) ms -> In (n, v) l -> has a v.
Proof.
  induction 1 as [|m e ms l [E H] F IH]; intros N n must a v M V; [destruct M|]. cbn [map] in N. inversion N as [|? ? N1 N2]; subst.
  destruct M as [->|M], V as [->|V]; cbn [fst snd] in *.
  - exact H.
  - destruct N1. rewrite <- (same_names _ _ F). now apply (in_map fst) in V.
  - destruct N1. rewrite <- E. now apply (in_map fst) in M.
  - now apply (IH N2 n must a v).
Qed.
Lemma has_members ms l : NoDup (map fst ms) -> Forall2 fits_member ms l -> has (Members ms) (JObj l).
Proof.
  intros N F. exists l. split; [reflexivity|]. pose proof (same_names _ _ F) as S. split; [now rewrite S|]. split; [rewrite S; apply incl_refl|].
  assert (forall n must a, In (n, (must, a)) ms -> (must = true -> In n (map fst l)) /\ (forall v, In (n, v) l -> has a v)) as A.
  { intros n must a M. split; [intros _; rewrite S; now apply (in_map fst) in M|]. intros v V. eapply fits_each; eauto. }
  clear N F S. induction ms as [|[n [must a]] ms IH]; [exact Logic.I|]. destruct (A n must a (or_introl eq_refl)) as [A1 A2]. split; [exact A1|]. split; [exact A2|]. apply IH. intros. apply (A n0 must0 a0). now right.
Qed.
Ltac text_names := repeat (apply NoDup_cons; [vm_compute; intuition discriminate|]); apply NoDup_nil.
Ltac members := apply has_members; [cbn [map fst member optional version]; text_names|]; repeat (apply Forall2_cons; [split; [reflexivity|cbn [snd member optional version]]|]); [..|apply Forall2_nil].
Lemma has_text x : has AText (JStr x). Proof. now exists x. Qed.
Lemma has_count n : has ACount (enc_usize n). Proof. eexists. split; [reflexivity|]. lia. Qed.
Lemma has_one x l : In x l -> has (OneOf l) (JStr x). Proof. intro I. now exists x. Qed.
Lemma has_version : has (OneOf [str "2.0"]) (JStr (str "2.0")). Proof. apply has_one. now left. Qed.
Lemma has_id i : has identifier (enc_id i).
Proof. destruct i as [z|x|]; [left; now exists z|right; left; apply has_text|right; right; reflexivity]. Qed.
#[local] Hint Resolve has_text has_count has_version has_id : shape.
Lemma has_fragment f : has s_fragment (enc_fragment f).
Proof. members; auto with shape. destruct f as [t []]; apply has_one; vm_compute; tauto. Qed.
Lemma has_rich l : has s_rich (enc_rich l).
Proof. apply has_vec, has_fragment. Qed.
#[local] Hint Resolve has_fragment has_rich : shape.
Definition shape_of (t : list (text * shape)) (m : text) (s : shape) : Prop := In (m, s) t.
Lemma has_said (n : enotif) session : exists m s p, In (m, s) server_says /\ has s p /\ enc_notification (wire_enotif session n) = JObj [(str "jsonrpc", JStr (str "2.0")); (str "method", JStr m); (str "params", norm p)].
Proof.
  destruct n as [[t err|c d|l]|m|l|l]; cbn [wire_enotif wire_notif].
  - exists (str "echo"), s_rich. eexists. split; [cbn [In server_says]; tauto|]. split; [apply has_rich|reflexivity].
  - exists (str "info"). eexists _, _. split; [do 2 right; left; reflexivity|]. split; [|reflexivity]. members; auto with shape.
  - exists (str "view"). eexists _, _. split; [do 5 right; left; reflexivity|]. split; [|reflexivity]. apply has_vec. intro i. members; auto with shape.
    apply has_vec. intro x. members; auto with shape. apply has_vec. auto with shape.
  - exists (str "menu"). eexists _, _. split; [do 3 right; left; reflexivity|]. split; [|reflexivity]. members; auto with shape. apply has_vec. intro x. members; auto with shape.
    destruct (en_descr x); [left; auto with shape|right; reflexivity].
  - exists (str "status"). eexists _, _. split; [do 4 right; left; reflexivity|]. split; [|reflexivity]. apply has_vec. intro x. members; auto with shape. now exists (st_index x).
  - exists (str "hint"). eexists _, _. split; [do 1 right; left; reflexivity|]. split; [|reflexivity]. members. apply has_vec. auto with shape.
Qed.
(** what the server says is structured *)
Lemma says_structured m s p : In (m, s) server_says -> has s p -> has Structured p.
Proof.
  intros I H. cbn [In server_says] in I. repeat (destruct I as [I|I]; [injection I as <- <-; destruct H as (l & -> & _); eexists _, _; first [left; reflexivity|right; reflexivity]|]). destruct I.
  Unshelve. all: exact [].
Qed.

(** ** the answers *)
Definition codes : list Z := [1; -32600; -32601; -32602; -32603]%Z.
Definition error_ok (e : Proto.error) : Prop := In (er_code e) codes /\ exists x, er_data e = Some (JStr x).
Definition outcome_ok (o : outcome) : Prop := match o with Some e => error_ok e | None => True end.
Definition response_ok (r : response) : Prop :=
  rp_version r = str "2.0" /\ (granted r \/ (rp_result r = None /\ exists e, rp_error r = Some e /\ error_ok e)).
Section Answers.
Variable G : Graphemes.
Variable pol : policy.
Variable u : regex_crate.
Variable se : serde.
Variable L : lua.
Lemma err_ok f x : In f [invalid_request; method_not_found; invalid_params; internal_error] -> error_ok (f x).
Proof. intros I. cbn [In] in I. unfold error_ok, codes. repeat (destruct I as [<-|I]; [split; [cbn; tauto|eexists; reflexivity]|]). destruct I. Qed.
Lemma exec_ok w id s (e : editor L) o e' : command_exec G pol L w id s e = Ok (o, e') -> outcome_ok o.
Proof. unfold command_exec. intro E. bnd E. destruct v as [[x|] e1]; injection E as <- _; [|exact Logic.I]. split; [left; reflexivity|eexists; reflexivity]. Qed.
Lemma core_ok r : outcome_ok (core_outcome r).
Proof. destruct r; try exact Logic.I. apply err_ok. cbn. tauto. Qed.
Lemma action_ok w a ch id (e : editor L) o e' : run_action G pol u L w a ch id e = Ok (o, e') -> outcome_ok o.
Proof.
  destruct a; cbn [run_action]; intro E; try (now apply exec_ok in E); unfold submenu_action, command_quit, command_view_delete, command_edit, command_view, command_view_add, command_view_remove in E; bnd E;
    try match type of E with (let '(_, _) := ?v in _) = _ => destruct v as [r e1] end; try bnd E; injection E as <- _; first [exact Logic.I|apply core_ok].
Qed.
Lemma keys_ok w id ks : forall (e : editor L) o e', command_keys G pol L w id ks e = Ok (o, e') -> outcome_ok o.
Proof.
  induction ks as [|k ks IH]; cbn [command_keys]; intros e o e' E; [injection E as <- _; exact Logic.I|]. bnd E. destruct v as [[x|] e1]; [|now apply IH in E]. bnd E. injection E as <- _. apply err_ok. cbn. tauto.
Qed.
Lemma answer_ok i (r : res (outcome * editor L)) x e' : (forall o e, r = Ok (o, e) -> outcome_ok o) -> answer L i r = Ok (x, e') -> response_ok x.
Proof.
  intros H E. unfold answer in E. destruct r as [[o e]| |]; try discriminate. cbn [bind] in E. injection E as <- _. specialize (H o e eq_refl).
  destruct o as [er|]; (split; [reflexivity|]); [right|left; split; reflexivity]. split; [reflexivity|]. exists er. split; [reflexivity|exact H].
Qed.
Lemma with_ok {T} (dec : json -> option T) q f (e : editor L) x e' : (forall p o e1, f p e = Ok (o, e1) -> outcome_ok o) -> with_params se L dec q f e = Ok (x, e') -> response_ok x.
Proof.
  intros H E. unfold with_params in E. eapply answer_ok; [|exact E]. intros o e1 E1. destruct (params_of dec (rq_params q)) as [[p|]|]; [eauto|injection E1 as <- _; apply err_ok; cbn; tauto|injection E1 as <- _; apply err_ok; cbn; tauto].
Qed.
Lemma handle_ok w id line (e : editor L) r e' : handle G pol u se L w id line e = Ok (r, e') -> response_ok r.
Proof.
  unfold handle. intro E. destruct (parse_request line) as [q|].
  - repeat match type of E with (if ?b then _ else _) = _ => destruct b end; try (eapply with_ok; [|exact E]); try (eapply answer_ok; [|exact E]); intros; cbv beta in *.
    all: try match goal with H : command_edit _ _ _ _ _ _ _ = _ |- _ => unfold command_edit in H; bnd H; injection H as <- _; exact Logic.I end.
    all: try match goal with H : command_keys _ _ _ _ _ _ _ = _ |- _ => exact (keys_ok _ _ _ _ _ _ H) end.
    all: try match goal with H : command_exec _ _ _ _ _ _ _ = _ |- _ => exact (exec_ok _ _ _ _ _ _ H) end.
    all: try match goal with H : command_quit _ _ _ _ _ _ = _ |- _ => exact (action_ok w AQuit [] _ _ _ _ H) end.
    all: try match goal with H : command_view_delete _ _ _ _ _ _ = _ |- _ => exact (action_ok w AViewDelete [] _ _ _ _ H) end.
    all: try match goal with H : command_view _ _ _ _ _ _ _ = _ |- _ => exact (action_ok w AViewSelect _ _ _ _ _ H) end.
    all: try match goal with H : command_view_add _ _ _ _ _ _ _ = _ |- _ => exact (action_ok w AViewAdd _ _ _ _ _ H) end.
    all: try match goal with H : command_view_remove _ _ _ _ _ _ _ = _ |- _ => exact (action_ok w AViewRemove _ _ _ _ _ H) end.
    + match goal with H : context [command_menu] |- _ => unfold command_menu in H; destruct (get _ _); [bnd H; injection H as <- _; exact Logic.I|injection H as <- _; apply err_ok; cbn; tauto] end.
    + match goal with H : context [command_menu_select] |- _ => unfold command_menu_select in H; destruct (get _ _); [|injection H as <- _; apply err_ok; cbn; tauto];
        match type of H with match ?m with _ => _ end = _ => destruct m end; [now apply action_ok in H|injection H as <- _; apply err_ok; cbn; tauto] end.
    + bnd E. injection E as <- _. split; [reflexivity|]. right. split; [reflexivity|]. eexists. split; [reflexivity|]. apply err_ok. cbn. tauto.
  - bnd E. injection E as <- _. split; [reflexivity|]. right. split; [reflexivity|]. eexists. split; [reflexivity|]. apply err_ok. cbn. tauto.
Qed.

(** ** the server *)
Definition said_ok (x : nat * written) : Prop := match snd x with WAnswer r => response_ok r | WNotif _ => True end.
Lemma move_said s m s' : smoves G pol u se L s m (Ok s') -> Forall said_ok (sv_log L s) -> Forall said_ok (sv_log L s').
Proof.
  intros H F. remember (Ok s') as r eqn:Er. destruct H as [Dn|Dn|d line Dn Hd|d Dn Hd|broken x Dn Hx|w broken v rest Dn Ev]; try discriminate; try (injection Er as <-; exact F).
  - injection Er as <-. apply Forall_app. split; [exact F|]. apply Forall_map, Forall_forall. intros. exact Logic.I.
  - unfold event_step in Er. bnd Er. destruct v0 as [[e l] log]. destruct (removed_clients L e) as [q e1]. bnd Er. injection Er as <-. cbn [sv_log].
    destruct v as [d|d|d line]; cbn [on_event] in E; cbv zeta in E; repeat bnd E.
    + injection E as _ _ <-. exact F.
    + injection E as _ _ <-. exact F.
    + destruct v as [r e2]. destruct (negb _); [discriminate|]. destruct (broken d); [discriminate|]. injection E as _ _ <-. apply Forall_app. split; [exact F|]. constructor; [|constructor]. unfold said_ok. cbn [snd]. match goal with H : handle _ _ _ _ _ _ _ _ _ = _ |- _ => exact (handle_ok _ _ _ _ _ _ H) end.
Qed.
Lemma runs_said s ms s' : runs G pol u se L s ms s' -> Forall said_ok (sv_log L s) -> Forall said_ok (sv_log L s').
Proof. induction 1 as [|ms s1 m s2 R IH H|ms s1 k R IH H]; intro F; [exact F|eapply move_said; eauto|apply IH, F]. Qed.
Lemma reach_said ms s c x : sreach G pol u se L ms s -> In (c, x) (sv_log L s) -> said_ok (c, x).
Proof. intros (w & session & cwd & args & st & scripts & e & _ & R) I. pose proof (runs_said _ _ _ R (Forall_nil _)) as F. rewrite Forall_forall in F. exact (F _ I). Qed.
Lemma answered_ok r : response_ok r -> has answered (enc_response r) /\ (has rpc_success (enc_response r) \/ has rpc_failure (enc_response r)).
Proof.
  destruct r as [v i res err]. intros (V & K). cbn [rp_version] in V. subst v. destruct K as [(R & E)|(R & e & E & C & x & D)]; cbn [rp_result rp_error] in *; subst.
  - split; left; unfold enc_response; cbn [opt_member app option_map rp_version rp_id rp_result rp_error]; members; auto with shape; exact Logic.I || reflexivity.
  - destruct e as [c m d]. cbn [er_code er_data] in *. subst d. split; right; unfold enc_response; cbn [opt_member app option_map rp_version rp_id rp_result rp_error enc_error er_code er_message er_data]; members; auto with shape; members; auto with shape; try exact Logic.I; try (exists c; split; [reflexivity|exact C]); eexists; reflexivity.
Qed.
(** Whatever happened, every message the server has written to anybody is one of the protocol... *)
Theorem C90_said : forall session ms s c x, sreach G pol u se L ms s -> In (c, x) (sv_log L s) ->
  exists j, print_event (wire_written session x) = print j /\
    ((exists m p, In (m, p) server_says /\ has (said m p) j) \/ has answered j).
Proof.
  intros session ms s c x R I. pose proof (reach_said _ _ _ _ R I) as K. eexists. split; [reflexivity|]. destruct x as [r|n]; cbn [wire_written enc_event said_ok snd] in *.
  - right. now apply answered_ok.
  - left. destruct (has_said n session) as (m & s' & p & M & H & ->). exists m, s'. split; [exact M|]. unfold said. members; auto with shape; [now apply has_one; left|now apply has_norm].
Qed.
(** ... and one of JSON-RPC 2.0. *)
Theorem C90_rpc_said : forall session ms s c x, sreach G pol u se L ms s -> In (c, x) (sv_log L s) ->
  exists j, print_event (wire_written session x) = print j /\ (has rpc_notification j \/ has rpc_success j \/ has rpc_failure j).
Proof.
  intros session ms s c x R I. pose proof (reach_said _ _ _ _ R I) as K. eexists. split; [reflexivity|]. destruct x as [r|n]; cbn [wire_written enc_event said_ok snd] in *.
  - right. now apply answered_ok.
  - left. destruct (has_said n session) as (m & s' & p & M & H & ->). unfold rpc_notification. members; auto with shape. apply has_norm. now apply (says_structured m s').
Qed.
End Answers.
Print Assumptions C90_said.
Print Assumptions C90_rpc_said.

(** ** the clients *)
(** a request is one of the protocol *)
Definition asked_ok (r : request) : Prop :=
  exists m s n p, In (m, s) client_asks /\ r = new_request (IdNum n) m (Some p) /\ has s p.
Lemma new_asked n m s p : In (m, s) client_asks -> has s p -> asked_ok (new_request (IdNum n) m (Some p)).
Proof. intros I H. exists m, s, n, p. auto. Qed.
Lemma has_key k : has s_key (enc_key k).
Proof. destruct k; [left; members; auto with shape| | | | | | |]; right; apply has_one; vm_compute; tauto. Qed.
Lemma send_asked checked m s p c c' : In (m, s) client_asks -> has s p -> send checked m (Some p) c = Ok c' -> Forall asked_ok (co_sent c) -> Forall asked_ok (co_sent c').
Proof.
  intros I H E F. unfold send, request_id in E. bnd E. destruct v as [i c1]. bnd E0. injection E0 as <- <-. injection E as <-. cbn [co_sent]. apply Forall_app. split; [exact F|]. constructor; [|constructor]. eapply new_asked; eauto.
Qed.
Lemma step_asked checked c o c' : cstep checked c o = Ok c' -> Forall asked_ok (co_sent c) -> Forall asked_ok (co_sent c').
Proof.
  intros E F. destruct o; cbn [cstep] in E.
  - injection E as <-. exact F.
  - eapply send_asked; [left; reflexivity| |exact E|exact F]. reflexivity.
  - eapply send_asked; [do 1 right; left; reflexivity| |exact E|exact F]. members; auto with shape. now exists scratch.
  - eapply send_asked; [do 2 right; left; reflexivity| |exact E|exact F]. members; auto with shape.
  - destruct (cs_menu (co_state c)) as [m|]; [|injection E as <-; exact F]. bnd E. bnd E. injection E as <-. cbn [set_menu co_sent]. eapply send_asked; [do 3 right; left; reflexivity| |eassumption|exact F]. members; auto with shape.
  - destruct (cs_menu (co_state c)) as [m|]; injection E as <-; exact F.
  - destruct (cs_menu (co_state c)) as [m|]; [bnd E|]; injection E as <-; exact F.
  - injection E as <-. exact F.
  - eapply send_asked; [do 4 right; left; reflexivity| |exact E|exact F]. apply has_map. intro k. members; try (eexists; reflexivity). apply has_key.
  - eapply send_asked; [do 5 right; left; reflexivity| |exact E|exact F]. apply has_text.
Qed.
(** Whatever the clients of a session call and the server answers, every request made is one of the protocol. *)
Lemma reach_asked G pol u se L checked session ms y : yreach G pol u se L checked session ms y -> forall c, Forall asked_ok (co_sent (pr_conn (sy_peer L y c))).
Proof.
  intro R. induction R as [|ms y l y' R IH H]; [intro c; constructor|]. intro d. destruct H; cbn [sy_peer]; try apply IH; unfold put_peer; destruct (d =? c) eqn:D; try apply IH; cbn [pr_conn].
  - eapply step_asked; [eassumption|apply IH].
  - unfold read_by. destruct (parse_event line); apply IH.
Qed.
Theorem C90_asked : forall G pol u se L checked session ms y, yreach G pol u se L checked session ms y ->
  forall c r, In r (co_sent (pr_conn (sy_peer L y c))) -> exists m p j, In (m, p) client_asks /\ print_request r = print j /\ has (asks m p) j.
Proof.
  intros G pol u se L checked session ms y R c r I. pose proof (reach_asked _ _ _ _ _ _ _ _ _ R c) as F. rewrite Forall_forall in F. destruct (F r I) as (m & s & n & p & M & -> & H). exists m, s. eexists. split; [exact M|]. split; [reflexivity|].
  unfold asks, enc_request, new_request. cbn [rq_version rq_id rq_method rq_params option_map opt_member app]. members; auto with shape; [now exists n|now apply has_one; left|now apply has_norm].
Qed.
Print Assumptions C90_asked.
(** ... and, but for two methods, one of JSON-RPC 2.0. *)
Theorem C90_rpc_asked_partial : forall G pol u se L checked session ms y, yreach G pol u se L checked session ms y ->
  forall c r, In r (co_sent (pr_conn (sy_peer L y c))) -> rq_method r <> str "quit" -> rq_method r <> str "exec" ->
  exists j, print_request r = print j /\ has rpc_request j.
Proof.
  intros G pol u se L checked session ms y R c r I N1 N2. pose proof (reach_asked _ _ _ _ _ _ _ _ _ R c) as F. rewrite Forall_forall in F. destruct (F r I) as (m & s & n & p & M & -> & H).
  eexists. split; [reflexivity|]. cbn [new_request rq_method] in N1, N2. assert (has Structured p) as S.
  { cbn [In client_asks] in M. repeat (destruct M as [M|M]; [injection M as <- <-; first [congruence|destruct H as (l & -> & _); eexists _, _; first [left; reflexivity|right; reflexivity]]|]). destruct M. }
  unfold rpc_request, enc_request, new_request. cbn [rq_version rq_id rq_method rq_params option_map opt_member app]. members; auto with shape. now apply has_norm.
  Unshelve. all: exact [].
Qed.
Print Assumptions C90_rpc_asked_partial.
(** The parameters of [exec] and [quit] are a text and null: JSON-RPC 2.0, section 4.2, has arrays and objects only. *)
Theorem C90_refuted : forall checked c l o c', crun checked l = Ok c -> (o = OpQuit \/ exists x, o = OpExec x) -> cstep checked c o = Ok c' ->
  exists r, co_sent c' = co_sent c ++ [r] /\ ~ has rpc_request (enc_request r).
Proof.
  intros checked c l o c' _ O E. assert (exists m p, (p = JNull \/ exists x, p = JStr x) /\ send checked m (Some p) c = Ok c') as (m & p & P & S).
  { destruct O as [->|(x & ->)]; cbn [cstep] in E; eexists _, _; (split; [|exact E]); eauto. }
  clear O E. unfold send, request_id in S. bnd S. destruct v as [i c1]. bnd E. injection E as <- <-. injection S as <-. cbn [co_sent]. eexists. split; [reflexivity|].
  intros (l0 & Q & _ & _ & (_ & _ & _ & _ & _ & _ & _ & H & _)). unfold enc_request, new_request in Q. cbn [rq_version rq_id rq_method rq_params option_map opt_member app] in Q. injection Q as <-.
  specialize (H (norm p)). assert (has Structured (norm p)) as (a & b & K); [apply H; cbn [In]; tauto|]. destruct P as [->|(x & ->)]; destruct K as [K|K]; discriminate.
Qed.
Print Assumptions C90_refuted.
