(** C20 for scripts: what [get_context] tells a script of the selections of a client. *)
From Coq Require Import String List Arith Lia Bool Permutation.
From Verif Require Import Base ListFacts LineSpec PieceTable PieceTableSpec PieceTableFacts PieceTableEdits PieceTableDelete Coords CoordsFacts Utf8 GraphemeInst HistoryFacts History Diff
  Selection NavSpec NavFacts PropNav Maps StackMap Fmt Buffer View ViewSpec ViewFacts NotifFacts PropNotif Utf8Facts Core CoreSpec CoreInv CoreOps PropCore CoreTame CoreSafe CoreDelete CoreSafeMore PropSafe PropDelete DiffApply.
Import ListNotations.
(** what a script is told of one selection: both ends, as offsets and as lines and columns, and the text *)
Definition told (x : text) (s : sel) (d : sel_data) : Prop :=
  sd_anchor d = (s_anchor s, coords_at x (s_anchor s)) /\ sd_cursor d = (s_cursor s, coords_at x (s_cursor s)) /\ sd_text d = selected x s.
Lemma mapM_ok {A B} (f : A -> res B) (R : A -> B -> Prop) l m : (forall a b, In a l -> f a = Ok b -> R a b) -> mapM f l = Ok m -> Forall2 R l m.
Proof.
  revert m. induction l as [|a l IH]; intros m H E; cbn [mapM] in E; [injection E as <-; constructor|]. destruct (f a) as [v| |] eqn:E1; try discriminate. cbn [bind] in E. destruct (mapM f l) as [r| |] eqn:E2; try discriminate. cbn [bind] in E. injection E as <-. constructor; [exact (H a v (or_introl eq_refl) E1)|].
  apply IH; [|reflexivity]. intros x y Hx Ex. exact (H x y (or_intror Hx) Ex).
Qed.
Lemma told_keys {A} (R : (text * A) -> (text * list sel_data) -> Prop) m ds : (forall a d, R a d -> fst d = fst a) -> Forall2 R m ds -> keys ds = keys m.
Proof. intros H F. induction F as [|a d m ds Q F IH]; [reflexivity|]. cbn [keys map]. rewrite (H _ _ Q). unfold keys in IH. now rewrite IH. Qed.
(** A script that asks for the context of a client is told its view, and in each buffer of the view its selections, in order. *)
Theorem C20_context_partial : forall G pol d k id v, policy_fine pol -> tame_reach G pol k -> looks_at k id v ->
  exists sels, run_call G pol d (CGetContext id) k = Ok (RContext (view_key v) sels, k) /\ (forall b, In b (keys sels) <-> shows v b) /\
    forall b ds, In (b, ds) sels -> exists ss x, sels_in k id (view_key v) b = Some ss /\ text_of k b = Some x /\ Forall2 (told x) ss ds.
Proof.
  intros G pol d k id v Pf R (c & Ec & Ev). apply tame_safe in R; auto. subst v. destruct (client_sels k id c R Ec) as (m & Em & Hm).
  destruct (context_ok G k id R) as ((key & sels) & E). { eapply get_key_in; eauto. }
  assert (key = view_key (c_view c) /\ Forall2 (fun e (x : text * list sel_data) => fst x = fst e /\ exists u, get (k_buffers k) (fst e) = Some u /\ Forall2 (told (txt (b_content u))) (snd e) (snd x)) m sels) as [-> F].
  { unfold get_context, the_client in E. rewrite Ec in E. cbn [unwrap bind] in E. rewrite Em in E. cbn [unwrap bind] in E. bnd E. injection E as <- <-. split; [reflexivity|].
    eapply mapM_ok; [|eassumption]. intros [b ss] x Hb Ex. cbn [fst snd] in *. destruct (Hm b ss Hb) as (u & Eu & (A & [As _] & T) & F & _). rewrite Eu in Ex. bnd Ex. injection Ex as <-. cbn [fst snd]. split; [reflexivity|]. exists u. split; [exact Eu|].
    eapply mapM_ok; [|eassumption]. intros s y Hs Ey. cbv beta in Ey. destruct F as [_ F]. rewrite Forall_forall in F. destruct (F s Hs) as [[Ha Hc] _].
    rewrite (nav_coords G _ A As) in Ey by auto. cbn [bind unwrap] in Ey. rewrite (nav_coords G _ A As) in Ey by auto. cbn [bind unwrap] in Ey.
    rewrite (selection_range_ok G (b_content u) A As (proj1 (term_nonempty _ T)) s Ha Hc) in Ey. cbn [bind] in Ey. pose proof A as [W N]. pose proof W as ((Co & _) & _).
    destruct (get_node_in 0 (t_pieces (b_content u)) (min (s_anchor s) (s_cursor s)) Co) as (pre & p & post & Gn). { rewrite <- txt_length by apply W. lia. }
    rewrite Gn in Ey. rewrite sub_ok in Ey by lia. cbn [bind] in Ey. unfold pt_text_range in Ey. rewrite range_spec in Ey by auto. cbn [bind] in Ey.
    replace (min (s_anchor s) (s_cursor s) <? length (txt (b_content u))) with true in Ey by (symmetry; apply Nat.ltb_lt; lia). injection Ey as <-. repeat split. cbn [sd_text]. fold (selected (txt (b_content u)) s).
    apply lossy_ascii. unfold selected. apply Forall_forall. intros z Hz. unfold ascii in As. rewrite Forall_forall in As. apply As. eapply slice_In. exact Hz. }
  exists sels. cbn [run_call]. rewrite E. split; [reflexivity|]. split.
  - intro b. rewrite (told_keys _ m sels (fun _ _ H => proj1 H) F). exact (sf_sels _ _ R _ _ _ _ _ _ Ec Em (sf_cur _ _ R _ _ Ec)).
  - intros b ds I. assert (exists ss, In (b, ss) m /\ exists u, get (k_buffers k) b = Some u /\ Forall2 (told (txt (b_content u))) ss ds) as (ss & Is & u & Eu & T).
    { clear -F I. induction F as [|a x m sels [Q (u & Eu & T)] F IH]; [destruct I|]. destruct I as [->|I]; [|destruct (IH I) as (ss & Is & Z); exists ss; split; [now right|exact Z]]. destruct a as [b' ss]. cbn [fst snd] in *. subst b'. exists ss. split; [now left|]. eauto. }
    exists ss, (txt (b_content u)). destruct (Hm b ss Is) as (_ & _ & _ & _ & Gb). split; [unfold sels_in; now rewrite Ec, Em|]. split; [unfold text_of; now rewrite Eu|exact T].
Qed.
Print Assumptions C20_context_partial.
(** it is asked for by a client that has selected part of a buffer *)
Example C20_context_demo : exists k v, session careful = Ok k /\ tame_reach utf8_graphemes pol_wrap k /\ looks_at k 2 v /\
  match run_call utf8_graphemes pol_wrap no_disk (CGetContext 2) k with Ok (RContext key sels, _) => key = view_key v /\ sels <> [] | _ => False end.
Proof.
  assert (session careful = Ok (get_ok (core_new []) (session careful))) as E by (apply session_state; vm_compute; reflexivity).
  eexists (get_ok (core_new []) (session careful)), _. split; [exact E|]. split; [apply (session_tame careful); [vm_compute; reflexivity|exact E]|]. clear E.
  split; [eexists; split; vm_compute; reflexivity|]. vm_compute. split; [reflexivity|discriminate].
Qed.
