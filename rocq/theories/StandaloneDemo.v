(** A start without a server, for the hypotheses of C58. *)
From Coq Require Import String List Arith Lia ZArith Bool.
From Verif Require Import Base ListFacts PieceTable PieceTableSpec PieceTableFacts HistoryFacts History Coords Utf8 Utf8Spec Utf8Facts GraphemeInst Diff Selection NavSpec Maps StackMap Fmt Buffer View Json Proto Core CoreSpec CoreInv CoreOps CoreTame CoreSafe CoreSafeMore PropCore PropSafe Payload Menu MenuSpec MenuFacts PropMenu Editor EditorSpec EditorFacts PropEditor EditorTame PropEditorSafe EditorDemo Standalone PropStandalone.
Import ListNotations.

(** every path is an old readable file *)
Definition full_disk : disk := mkDisk (fun _ => Some (str "hello" ++ [LF])) (fun _ => Some 1) 5.
Definition full_world : world := {| w_disk := full_disk; w_walk := fun _ => [] |}.
Notation demo_start := (start_standalone utf8_graphemes pol_wrap demo_lua full_world (str "/w") (str "ced") 0 (SDone 0)).
(** Two files are opened; with ninety-eight the program never gets there. *)
Example C58_demo : (exists e, demo_start [str "a"; str "b"] = Ok (Some e) /\ open (ed_core _ e) (str "a") /\ open (ed_core _ e) (str "b")) /\
  demo_start (repeat (str "a") 98) = Ok None.
Proof.
  assert (exists e0, editor_new utf8_graphemes pol_wrap demo_lua full_world [] (str "/w") (str "ced") 0 (SDone 0) = Ok e0 /\ demo_reach e0) as (e0 & E0 & R0).
  { apply C37_starts_partial; [apply pol_wrap_fine|apply plain_str; reflexivity..| |]. - intros k _. exact Logic.I. - intros e r e' H. injection H as <- _. reflexivity. }
  assert (careful utf8_graphemes pol_wrap ascii_crate demo_serde demo_lua full_world (Ejoin 1) e0) as C1.
  { split; [|intros; apply execs_careful]. right. exists (str "*debug*{*}|*scratch*{*}"). intros key H.
    assert ((match editor_new utf8_graphemes pol_wrap demo_lua full_world [] (str "/w") (str "ced") 0 (SDone 0) with Ok e => keys (vmap (ed_core _ e)) | _ => [] end) = [str "*debug*{*}|*scratch*{*}"]) as K by (vm_compute; reflexivity).
    rewrite E0 in K. unfold listed in H. rewrite K in H. destruct H as [<-|[]]. reflexivity. }
  destruct (C37_careful_partial _ _ _ _ _ pol_wrap_fine _ _ _ R0 C1) as (e1 & E1 & R1). cbn [happens] in E1.
  assert ((match editor_new utf8_graphemes pol_wrap demo_lua full_world [] (str "/w") (str "ced") 0 (SDone 0) with Ok e => match editor_add_client utf8_graphemes pol_wrap demo_lua full_world standalone_client e with Ok e' => Some (has_room demo_lua e, length (ed_out _ e'), keys (k_buffers (ed_core _ e')), k_cwd (ed_core _ e')) | _ => None end | _ => None end) = Some (true, 3, [str "*debug*"; str "*scratch*"], str "/w")) as K by (vm_compute; reflexivity).
  rewrite E0 in K. change (editor_add_client utf8_graphemes pol_wrap demo_lua full_world standalone_client e0 = Ok e1) in E1. rewrite E1 in K. injection K as K1 K2 K3 K4.
  assert (forall f, forallb (fun b => b <? 128) f = true -> good_nameb f = true -> eqb f b_debug = false -> eqb f (str "*scratch*") = false -> file_ready full_world (k_cwd (ed_core demo_lua e1)) f /\ ~ open (ed_core demo_lua e1) f) as Ready.
  { intros f A Gf N1 N2. split.
    - split; [now apply good_nameb_ok|]. split; [intros ->; vm_compute in N1; discriminate|]. split; [eexists; split; [reflexivity|]; apply plainb_ok; vm_compute; reflexivity|]. exists 1. split; [reflexivity|]. cbn. lia.
    - unfold open. rewrite K3. intros [<-|[<-|[]]]; discriminate. }
  assert (forall files, (forall f, In f files -> f = str "a" \/ f = str "b") -> Forall (file_ready full_world (k_cwd (ed_core demo_lua e1))) files /\ Forall (fun f => ~ open (ed_core demo_lua e1) f) files) as All.
  { intros files H. split; apply Forall_forall; intros f Hf; destruct (H f Hf) as [->| ->]; apply Ready; vm_compute; reflexivity. }
  split.
  - destruct (All [str "a"; str "b"]) as [A B]; [intros f [<-|[<-|[]]]; auto|]. destruct (C58_partial utf8_graphemes pol_wrap ascii_crate demo_serde demo_lua _ _ _ _ _ _ _ _ pol_wrap_fine E0 K1 E1 R1 A B) as [C _]. destruct C as (e & E & O); [rewrite K2; cbn [length]; lia|]. exists e. split; [exact E|]. split; apply O; [now left|right; now left].
  - destruct (All (repeat (str "a") 98)) as [A B]; [intros f Hf; left; now apply repeat_spec in Hf|]. destruct (C58_partial utf8_graphemes pol_wrap ascii_crate demo_serde demo_lua _ _ _ _ _ _ _ _ pol_wrap_fine E0 K1 E1 R1 A B) as [_ C]. apply C. rewrite repeat_length, K2. lia.
Qed.
