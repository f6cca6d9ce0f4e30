(** A standalone session, for the hypotheses of C73; and one whose last notifications are never printed. *)
From Coq Require Import String List Arith Lia ZArith Bool.
From Verif Require Import Base ListFacts PieceTable PieceTableSpec PieceTableFacts HistoryFacts History Coords Utf8 Utf8Spec Utf8Facts GraphemeInst Diff Selection NavSpec Maps StackMap Fmt Buffer View Json Proto Core CoreSpec CoreInv CoreOps CoreTame CoreSafe CoreSafeMore PropCore PropSafe Payload Menu MenuSpec MenuFacts PropMenu Editor EditorSpec EditorFacts PropEditor EditorTame PropEditorSafe EditorDemo Server ServerSpec ServerFacts PropServer Standalone PropStandalone StandaloneDemo StandLoop PropStandLoop.
Import ListNotations.

Notation demo_loop := (loop demo_lua).
Notation demo_lruns := (lruns utf8_graphemes pol_wrap ascii_crate demo_serde demo_lua).
Notation demo_lstep := (lstep utf8_graphemes pol_wrap ascii_crate demo_serde demo_lua).
Definition full_handle := handle utf8_graphemes pol_wrap ascii_crate demo_serde demo_lua full_world standalone_client.
Definition quit_line : text := str "{""jsonrpc"":""2.0"",""id"":8,""method"":""quit""}".
Lemma same_core (e : editor demo_lua) : set_core demo_lua e (ed_core demo_lua e) = e.
Proof. unfold set_core. rewrite skipn_all. cbn. rewrite app_nil_r. now destruct e. Qed.
Lemma demo_line s x r a e' : lp_left demo_lua s = false -> lp_pending demo_lua s = None -> lp_input demo_lua s = Some x :: r -> full_handle x (lp_editor _ s) = Ok (a, e') ->
  demo_lstep s (mkLp demo_lua e' r (Some a) (lp_taken _ s) (lp_printed _ s) false false).
Proof. intros Lf P I E. eapply (ls_line _ _ _ _ _ s full_world (ed_core _ (lp_editor _ s))); eauto; [apply shuffle_refl|]. rewrite same_core. exact E. Qed.

(** A script that fails, a line that is not UTF-8 and a request to quit: both requests are answered. *)
Example C73_demo : exists e0 s s1, begun utf8_graphemes pol_wrap demo_lua e0 /\
  demo_lruns (loop_new _ e0 [Some bad_exec; None; Some quit_line; Some edit_notes]) s /\
  lp_input _ s = [Some quit_line; Some edit_notes] /\ lp_pending _ s = None /\ lp_left _ s = false /\
  length (printed_answers (lp_printed _ s)) = 1 /\ quits demo_lua (lp_editor _ s) quit_line /\
  demo_lstep s s1 /\ lp_input _ s1 = [Some edit_notes] /\ length (told demo_lua s1) = 2.
Proof.
  destruct (ok_such (e <- demo_start [str "a"] ;; match e with Some e => '(a, e1) <- full_handle bad_exec e ;; '(b, e2) <- full_handle quit_line e1 ;; Ok (e, a, e1, b, e2) | None => Unspec end) (fun x => match x with (e, a, e1, b, e2) => length (ed_out _ e1) <=? 50 end)) as ([[[[e a] e1] b] e2] & H & K); [vm_compute; reflexivity|].
  bnd H. rename v into o. destruct o as [e'|]; [|discriminate]. bnd H. destruct v as [a' e1']. bnd H. destruct v as [b' e2']. injection H as <- <- <- <- <-. apply Nat.leb_le in K.
  eexists e', _, _. split; [do 6 eexists; exact E|]. split.
  - eapply lr_step; [eapply lr_step; [eapply lr_step; [apply lr_stay|eapply demo_line; [reflexivity..|exact E0]]|]|].
    + eapply ls_answer; [reflexivity|reflexivity|]. unfold fits. cbn [lp_editor lp_taken]. unfold queue_room. cbn [lp_taken loop_new]. lia.
    + eapply ls_garbage; reflexivity.
  - split; [reflexivity|]. split; [reflexivity|]. split; [reflexivity|]. split; [reflexivity|]. split; [eexists; split; [vm_compute; reflexivity|]; left; vm_compute; reflexivity|]. split; [eapply demo_line; [reflexivity..|exact E1]|]. split; reflexivity.
Qed.

(** The claim that every notification addressed to the client has been printed when the program ends is false: with no input, it
    may end before any is printed. *)
Theorem C73_lost_refuted : ~ forall e0 input s, begun utf8_graphemes pol_wrap demo_lua e0 -> demo_lruns (loop_new _ e0 input) s -> lp_exited _ s = true ->
  printed_notifs (lp_printed _ s) = addressed (ed_out _ (lp_editor _ s)) standalone_client.
Proof.
  intro C. destruct (ok_such (e <- demo_start [str "a"] ;; match e with Some e => e1 <- editor_remove_client utf8_graphemes pol_wrap demo_lua full_world standalone_client e ;; Ok (e, e1) | None => Unspec end)
    (fun x => (length (ed_out _ (snd x)) <=? 50) && negb (length (addressed (ed_out _ (snd x)) standalone_client) =? 0))) as ([e e1] & H & K); [vm_compute; reflexivity|].
  bnd H. rename v into o. destruct o as [e'|]; [|discriminate]. bnd H. injection H as <- <-. apply andb_prop in K. destruct K as [K1 K2]. apply Nat.leb_le in K1. cbn [snd] in K1, K2. apply negb_true_iff, Nat.eqb_neq in K2.
  assert (begun utf8_graphemes pol_wrap demo_lua e') as B by (do 6 eexists; exact E).
  specialize (C e' [] (mkLp demo_lua v [] None 0 [] true true) B). cbn [lp_editor lp_printed] in C. apply K2. rewrite <- C; [reflexivity| |reflexivity]. clear C.
  eapply (lr_step _ _ _ _ _ _ (mkLp demo_lua v [] None 0 [] true false)).
  - eapply lr_step; [apply lr_stay|]. apply (ls_end utf8_graphemes pol_wrap ascii_crate demo_serde demo_lua (loop_new demo_lua e' []) full_world (ed_core demo_lua e') v); try reflexivity; [apply shuffle_refl|]. cbn [lp_editor loop_new]. rewrite same_core. exact E0.
  - apply (ls_exit _ _ _ _ _ (mkLp demo_lua v [] None 0 [] true false)); try reflexivity. unfold fits. cbn [lp_editor lp_taken]. unfold queue_room. lia.
Qed.
Print Assumptions C73_demo.
Print Assumptions C73_lost_refuted.
