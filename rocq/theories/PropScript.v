(** C70: running scripts without a server. *)
From Coq Require Import String List Arith Lia ZArith Bool.
From Verif Require Import Base ListFacts PieceTable HistoryFacts GraphemeInst Coords Utf8 Utf8Facts Diff Selection Maps StackMap Fmt Buffer View Json Proto Keys Core CoreSpec CoreInv PropCore Payload Menu MenuSpec Editor EditorSpec EditorFacts PropEditor EditorTame PropEditorSafe EditorDemo PropProto Script.
Import ListNotations.

(** ** specification *)
(** what the scripts of a command line contain, in order: the first [-] is the standard input, the next ones are empty *)
Inductive contents (file : text -> option text) : option text -> list text -> list (option text) -> Prop :=
| co_nil i : contents file i [] []
| co_stdin i names l : contents file (Some []) names l -> contents file i (str "-" :: names) (i :: l)
| co_file i n names l : n <> str "-" -> contents file i names l -> contents file i (n :: names) (file n :: l).
Section Script.
Variable G : Graphemes.
Variable pol : policy.
Variable u : regex_crate.
Variable se : serde.
Variable L : lua.
Notation handle := (handle G pol u se L).
Notation exec_scripts := (exec_scripts G pol L).
Notation exec_script_oneshot := (exec_script_oneshot G pol L).
(** client 1 asks to run each of these sources, one after the other, and all of them are granted *)
Inductive ran (w : world) : list text -> editor L -> editor L -> Prop :=
| ran_nil e : ran w [] e e
| ran_cons x xs line q r e e1 e2 : parse_request line = Some q -> asks dec_str (str "exec") x q -> handle w 1 line e = Ok (r, e1) -> granted r ->
    ran w xs e1 e2 -> ran w (x :: xs) e e2.
(** when client 1 asks to run [x], it is refused with [err] *)
Definition fails (w : world) (x err : text) (e : editor L) : Prop := forall line q r e1,
  parse_request line = Some q -> asks dec_str (str "exec") x q -> handle w 1 line e = Ok (r, e1) -> rp_result r = None /\ rp_error r = Some (mkErr 1 (str "exec error") (Some (JStr err))).

(** ** proofs *)
Lemma exec_granted w line q x e r e' : parse_request line = Some q -> asks dec_str (str "exec") x q -> handle w 1 line e = Ok (r, e') -> granted r ->
  exec_lua G pol L w (str "exec") 1 (lu_exec L x) e = Ok (None, e').
Proof.
  intros P A E (Gr & Ge). rewrite (handle_exec _ _ _ _ _ _ _ _ _ _ P _ A) in E. unfold answer, command_exec in E. bnd E. bnd E0. destruct v0 as [o e1]. injection E0 as <-. destruct o; injection E as <- <-; [discriminate|reflexivity].
Qed.
(** the name of a script only matters when it fails *)
Lemma name_only n m w id f e r e' : exec_lua G pol L w n id f e = Ok (r, e') ->
  match r with None => exec_lua G pol L w m id f e = Ok (None, e') | Some x => forall o e2, exec_lua G pol L w m id f e = Ok (o, e2) -> o = Some x end.
Proof.
  unfold exec_lua. intro E. bnd E. destruct v as [r0 e0]. bnd E. destruct v as [r1 e1]. destruct r1 as [x|].
  - bnd E. bnd E. injection E as <- <-. cbn [bind]. rewrite E1. cbn [bind]. intros o e2 E4. bnd E4. bnd E4. injection E4 as <- _. reflexivity.
  - injection E as <- <-. cbn [bind]. rewrite E1. reflexivity.
Qed.
Lemma exec_asked w x e e' : exec_lua G pol L w (str "exec") 1 (lu_exec L x) e = Ok (None, e') ->
  exists line q r, parse_request line = Some q /\ asks dec_str (str "exec") x q /\ handle w 1 line e = Ok (r, e') /\ granted r.
Proof.
  intro E. destruct (C38_string x (IdNum 0) (str "exec")) as (q & P & Hi & Hm & Hp); [cbn; lia|]. set (line := print_request (new_request (IdNum 0) (str "exec") (Some (JStr x)))) in *.
  assert (asks dec_str (str "exec") x q) as A. { split; [exact Hm|]. unfold params_of in Hp. destruct (rq_params q) as [j|]; [|discriminate]. exists j. split; [reflexivity|]. destruct j; try discriminate; injection Hp as ->; reflexivity. }
  eexists line, q, _. split; [exact P|]. split; [exact A|]. rewrite (handle_exec _ _ _ _ _ _ _ _ _ _ P _ A). unfold answer, command_exec. rewrite E. cbn [bind]. split; [reflexivity|split; reflexivity].
Qed.
(** the contents, as the program reads them *)
Lemma contents_of file : forall names i, exists l, contents file i names l.
Proof.
  induction names as [|n names IH]; intro i; [exists []; constructor|]. destruct (eqb n (str "-")) eqn:E.
  - apply eqb_ok in E. subst n. destruct (IH (Some [])) as (l & C). exists (i :: l). now constructor.
  - apply eqb_neq in E. destruct (IH i) as (l & C). exists (file n :: l). now constructor.
Qed.
Lemma contents_length file i names l : contents file i names l -> length l = length names.
Proof. induction 1; cbn; congruence. Qed.
Definition ended (w : world) (names : list text) (l : list (option text)) (e1 : editor L) (r : run_end) (e2 : editor L) : Prop :=
  match r with
  | RunOk => exists xs, l = map Some xs /\ ran w xs e1 e2
  | RunIo n => exists xs l', l = map Some xs ++ None :: l' /\ ran w xs e1 e2 /\ nth_error names (length xs) = Some n
  | RunLua n err => exists xs x l' e, l = map Some xs ++ Some x :: l' /\ ran w xs e1 e /\ nth_error names (length xs) = Some n /\ fails w x err e /\ exec_lua G pol L w n 1 (lu_exec L x) e = Ok (Some err, e2)
  end.
Lemma each_ended w : forall names s e1 l r e2, contents (src_file s) (src_stdin s) names l -> exec_each G pol L w names s e1 = Ok (r, e2) -> ended w names l e1 r e2.
Proof.
  induction names as [|n names IH]; intros s e1 l r e2 C E; cbn [exec_each] in E.
  - injection E as <- <-. inversion C; subst. exists []. split; [reflexivity|constructor].
  - assert (exists x s' l', read_source n s = (x, s') /\ l = x :: l' /\ contents (src_file s') (src_stdin s') names l') as (x & s' & l' & Er & -> & C').
    { unfold read_source. inversion C; subst; [rewrite eqb_refl; eauto 10|]. apply eqb_neq in H3 || apply eqb_neq in H2. match goal with H : eqb n (str "-") = false |- _ => rewrite H end. eauto 10. }
    rewrite Er in E. destruct x as [x|].
    + bnd E. destruct v as [o e]. destruct o as [err|].
      * injection E as <- <-. exists [], x, l', e1. split; [reflexivity|]. split; [constructor|]. split; [reflexivity|]. split; [|exact E0].
        intros line q r e3 P A H. rewrite (handle_exec _ _ _ _ _ _ _ _ _ _ P _ A) in H. unfold answer, command_exec in H. bnd H. bnd E. destruct v0 as [o e4]. injection E as <-. injection H as <- _.
        apply (name_only _ (str "exec")) in E0. apply E0 in E1. subst o. split; reflexivity.
      * specialize (IH _ _ _ _ _ C' E). apply (name_only _ (str "exec")) in E0. apply exec_asked in E0. destruct E0 as (line & q & rp & P & A & H & Gr). destruct r as [|m|m err].
        -- destruct IH as (xs & -> & Hr). exists (x :: xs). split; [reflexivity|]. econstructor; eauto.
        -- destruct IH as (xs & l2 & -> & Hr & Nn). exists (x :: xs), l2. split; [reflexivity|]. split; [econstructor; eauto|exact Nn].
        -- destruct IH as (xs & y & l2 & e3 & -> & Hr & Nn & F & X). exists (x :: xs), y, l2, e3. split; [reflexivity|]. split; [econstructor; eauto|]. auto.
    + injection E as <- <-. exists [], l'. split; [reflexivity|]. split; [constructor|reflexivity].
Qed.
(** Running the scripts of a command line is what happens in a session without a name when client 1 joins, asks to run each of
    them in turn, and leaves.  The run ends at the first script that cannot be read or fails, with an error that says so: the
    ones before it were run, the ones after it were not, and the client did not leave. *)
Theorem C70 : forall w cwd args s0 scripts names file stdin l r e',
  contents file stdin names l -> exec_scripts w cwd args s0 scripts names (mkSrc file stdin) = Ok (r, e') ->
  exists e0 e1, editor_new G pol L w [] cwd args s0 scripts = Ok e0 /\ editor_add_client G pol L w 1 e0 = Ok e1 /\
  match r with
  | RunOk => exists xs e2, l = map Some xs /\ ran w xs e1 e2 /\ editor_remove_client G pol L w 1 e2 = Ok e'
  | RunIo n => exists xs l', l = map Some xs ++ None :: l' /\ ran w xs e1 e' /\ nth_error names (length xs) = Some n
  | RunLua n err => exists xs x l' e2, l = map Some xs ++ Some x :: l' /\ ran w xs e1 e2 /\ nth_error names (length xs) = Some n /\ fails w x err e2
  end.
Proof.
  intros w cwd args s0 scripts names file stdin l r e' C E. unfold Script.exec_scripts in E. bnd E. bnd E. bnd E. destruct v1 as [r1 e2]. apply (each_ended w names (mkSrc file stdin) v0 l r1 e2 C) in E2. exists v, v0. split; [reflexivity|]. split; [exact E1|].
  destruct r1 as [|n|n err]; cbn [ended] in E2.
  - bnd E. injection E as <- <-. destruct E2 as (xs & A & B). eauto.
  - injection E as <- <-. destruct E2 as (xs & l' & A & B & D). eauto 10.
  - injection E as <- <-. destruct E2 as (xs & x & l' & e & A & B & D & F & _). eauto 10.
Qed.
(** Running one file is running a command line with that file, unless the file is called [-]. *)
Theorem C70_oneshot : forall w cwd args s0 scripts path s, path <> str "-" ->
  exec_script_oneshot w cwd args s0 scripts path s = exec_scripts w cwd args s0 scripts [path] s.
Proof.
  intros w cwd args s0 scripts path s N. unfold Script.exec_script_oneshot, Script.exec_scripts. cbn [exec_each]. unfold read_source. apply eqb_neq in N. rewrite N.
  destruct (editor_new G pol L w [] cwd args s0 scripts) as [e0| |]; cbn [bind]; try reflexivity. destruct (editor_add_client G pol L w CLIENT_ID e0) as [e1| |]; cbn [bind]; try reflexivity.
  destruct (src_file s path) as [x|]; [|reflexivity]. destruct (exec_lua G pol L w path CLIENT_ID (lu_exec L x) e1) as [[o e2]| |]; cbn [bind]; try reflexivity. destruct o; reflexivity.
Qed.
End Script.
Print Assumptions C70.
Print Assumptions C70_oneshot.
(** a file that does nothing, the standard input which fails, a file that is not reached *)
Example C70_demo : exists e', exec_scripts utf8_graphemes pol_wrap demo_lua demo_world (str "/w") (str "ced") 0 (SDone 0) [str "a.lua"; str "-"; str "b.lua"]
    (mkSrc (fun n => if eqb n (str "a.lua") then Some (str "x = 1") else None) (Some (str "boom"))) = Ok (RunLua (str "-") (str "no such function"), e') /\
  exists e2, exec_scripts utf8_graphemes pol_wrap demo_lua demo_world (str "/w") (str "ced") 0 (SDone 0) [str "a.lua"; str "-"; str "-"; str "b.lua"]
    (mkSrc (fun n => if eqb n (str "a.lua") then Some (str "x = 1") else None) (Some (str "x = 2"))) = Ok (RunIo (str "b.lua"), e2).
Proof.
  assert (forall x r, (match x with Ok (a, _) => match a, r with RunLua n t, RunLua n' t' => eqb n n' && eqb t t' | RunIo n, RunIo n' => eqb n n' | _, _ => false end | _ => false end) = true -> exists e, x = Ok (r, e : editor demo_lua)) as K.
  { intros x r H. destruct x as [[a e]| |]; [|discriminate..]. exists e. destruct a, r; try discriminate; [apply eqb_ok in H; now subst|]. apply andb_prop in H. destruct H as [A B]. apply eqb_ok in A, B. now subst. }
  destruct (K (exec_scripts utf8_graphemes pol_wrap demo_lua demo_world (str "/w") (str "ced") 0 (SDone 0) [str "a.lua"; str "-"; str "b.lua"]
    (mkSrc (fun n => if eqb n (str "a.lua") then Some (str "x = 1") else None) (Some (str "boom")))) (RunLua (str "-") (str "no such function"))) as (e & E); [vm_compute; reflexivity|]. exists e. split; [exact E|].
  apply K. vm_compute. reflexivity.
Qed.
