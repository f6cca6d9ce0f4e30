(** C04, C21, C22 and C62 in every state of the editor (not only careful sessions). *)
From Coq Require Import String List Arith Lia Bool Permutation.
From Verif Require Import Base ListFacts LineSpec PieceTable PieceTableSpec PieceTableFacts PieceTableEdits Coords CoordsFacts Utf8 GraphemeInst HistoryFacts History Diff
  Selection NavSpec NavFacts PropNav Maps StackMap Fmt Buffer View ViewSpec ViewFacts NotifFacts PropNotif Utf8Facts Core CoreSpec CoreInv CoreOps PropCore CoreTame CoreDelete PropSafe PropDelete PropLog Profiles CoreAll.
Import ListNotations.

(** ** C04: the line index of every buffer, after any history of requests (the editor never undoes) *)
Theorem C04_buffers : forall G pol k b u x, policy_wrap pol \/ policy_succ pol -> fed_reach G pol k -> get (k_buffers k) b = Some u -> pt_text (b_content u) = Ok x ->
  t_nl (b_content u) = newline_positions x.
Proof.
  intros G pol k b u x P R E X. destruct (indexed G pol k b u P R E) as [W N]. rewrite pt_text_txt in X by exact W. injection X as <-. exact N.
Qed.
Print Assumptions C04_buffers.

(** ** C62: the text of the logs *)
Lemma log_line G pol k b x k1 : policy_wrap pol \/ policy_succ pol -> fed_reach G pol k -> x <> [] -> append_to G b x k = Ok k1 -> text_of k1 b = Some (log_text k b ++ x).
Proof.
  intros P R Hx E. apply append_frame in E. destruct E as (_ & _ & _ & u' & Eb & H). unfold text_of, log_text, text_of. rewrite Eb, get_set_same. cbn [option_map].
  destruct (get (k_buffers k) b) as [u|] eqn:Eu; cbn [option_map].
  - destruct (indexed G pol k b u P R Eu) as [W _]. unfold buf_append in H. destruct (append_spec x _ W Hx) as (t' & E' & _ & T' & _). rewrite E' in H. cbn [bind] in H. injection H as <-.
    cbn [b_content set_content]. now rewrite T'.
  - subst u'. unfold new_scratch. cbn [b_content]. destruct x as [|a x]; [congruence|]. destruct (sim_init (a :: x)) as [(_ & _ & T & _) _]; [discriminate|]. now rewrite T.
Qed.
Theorem C62_message_log : forall G pol d k c x r k', policy_wrap pol \/ policy_succ pol -> fed_reach G pol k -> run_call G pol d (CMessage c x) k = Ok (r, k') ->
  text_of k' (str "*messages*") = Some (log_text k (str "*messages*") ++ who c ++ str "|" ++ x ++ [LF]).
Proof.
  intros G pol d k c x r k' P R E. cbn [run_call] in E. bnd E. injection E as <- <-. unfold message in E0. bnd E0. injection E0 as <-.
  change (text_of (emit v0 _) _) with (text_of v0 (str "*messages*")). eapply log_line; [exact P|exact R| |exact E].
  intro X. apply app_eq_nil in X. destruct X as [_ X]. discriminate X.
Qed.
Print Assumptions C62_message_log.
Theorem C62_error_log : forall G pol d k c tag x r k', policy_wrap pol \/ policy_succ pol -> fed_reach G pol k -> run_call G pol d (CError c tag x) k = Ok (r, k') ->
  text_of k' (str "*errors*") = Some (log_text k (str "*errors*") ++ who c ++ str "|" ++ (tag ++ str ": " ++ x) ++ [LF]).
Proof.
  intros G pol d k c tag x r k' P R E. cbn [run_call] in E. bnd E. injection E as <- <-. unfold error in E0. bnd E0. injection E0 as <-.
  change (text_of (emit v0 _) _) with (text_of v0 (str "*errors*")). eapply log_line; [exact P|exact R| |exact E].
  intro X. apply app_eq_nil in X. destruct X as [_ X]. discriminate X.
Qed.
Print Assumptions C62_error_log.
Theorem C62_debug_log : forall G pol d k x r k', policy_wrap pol \/ policy_succ pol -> fed_reach G pol k -> run_call G pol d (CDebug x) k = Ok (r, k') ->
  text_of k' b_debug = Some (log_text k b_debug ++ x ++ [LF]).
Proof.
  intros G pol d k x r k' P R E. cbn [run_call] in E. bnd E. injection E as <- <-. unfold debug in E0. eapply log_line; [exact P|exact R| |exact E0]. destruct x; discriminate.
Qed.
Print Assumptions C62_debug_log.

(** ** C21 *)
(** the client has one selection, inside the buffer, in each buffer of its view and nowhere else; the buffers are ASCII *)
Definition one_selection_each (k : core) (id : nat) (v : view) : Prop :=
  (forall b, shows v b -> exists s x, selects k id v b s x /\ sel_inside x s /\ ascii x) /\
  (forall b, sels_in k id (view_key v) b <> None -> shows v b).
Lemma delete_release G pol d id k r k' : policy_wrap pol \/ policy_succ pol -> run_call G pol d (CDeleteSelection id) k = Ok (r, k') ->
  exists p, policy_wrap p /\ run_call G p d (CDeleteSelection id) k = Ok (r, k').
Proof. intros [P|P] E; [eauto|]. exists pol_wrap. split; [exact pol_wrap_ok|]. apply (le_call pol P). exact E. Qed.
Lemma each_ready G pol p k id c m : policy_wrap pol \/ policy_succ pol -> fed_reach G pol k -> policy_wrap p -> get (cmap k) id = Some c -> one_selection_each k id (c_view c) ->
  get (c_sels c) (view_key (c_view c)) = Some m -> client_ready G p k c m /\ (forall b, In b (keys m) <-> shows (c_view c) b).
Proof.
  intros P R Pw Ec [H1 H2] Em. assert (forall b ss, get m b = Some ss -> shows (c_view c) b) as Hm.
  { intros b ss Eb. apply H2. unfold sels_in. rewrite Ec, Em, Eb. discriminate. }
  assert (uniq m) as U. { pose proof (reach_inv _ _ _ (fed_reach_reach _ _ _ R)) as I. destruct (i_cl _ (i_0 _ I) _ _ Ec) as (_ & _ & U). eapply U; eauto. }
  split; [split; [exact Em|split; [exact U|]]|].
  - intros [b ss] Hb. pose proof (get_uniq _ _ _ U Hb) as Eb. destruct (H1 b (Hm _ _ Eb)) as (s & x & (S1 & S2) & I & As). unfold sels_in in S1. rewrite Ec, Em, Eb in S1. injection S1 as ->.
    unfold text_of in S2. destruct (get (k_buffers k) b) as [u|] eqn:Eu; [|discriminate]. injection S2 as <-. exists u, s. cbn [fst snd]. split; auto. split; auto.
    split; [eapply indexed; eauto|]. split; auto.
  - intro b. split; intro Hb.
    + apply get_some in Hb. destruct Hb as (ss & Eb). eauto.
    + destruct (H1 b Hb) as (s & x & (S1 & _) & _). unfold sels_in in S1. rewrite Ec, Em in S1. eapply get_key_in; eauto.
Qed.

Theorem C21_editor : forall G pol d k id v r k', policy_wrap pol \/ policy_succ pol -> fed_reach G pol k -> looks_at k id v -> one_selection_each k id v ->
  run_call G pol d (CDeleteSelection id) k = Ok (r, k') ->
  (* the reply: the selected texts, in some order of the buffers *)
  (exists bs xs, r = RTexts xs /\ Permutation bs (keys v) /\
     Forall2 (fun b y => exists s x, selects k id v b s x /\ y = selected x s) bs xs) /\
  (* the buffers *)
  (forall b s x, selects k id v b s x -> text_of k' b = Some (remaining x s)) /\
  (forall b, ~ shows v b -> get (k_buffers k') b = get (k_buffers k) b) /\
  (* nothing else *)
  vmap k' = vmap k /\ keys (cmap k') = keys (cmap k) /\ looks_at k' id v /\ (forall j, j <> id -> get (cmap k') j = get (cmap k) j) /\
  (forall key b, key <> view_key v -> sels_in k' id key b = sels_in k id key b) /\
  (* the client's selections in the view *)
  (forall b s x, selects k id v b s x -> selects k' id v b (sel_clamp (length (remaining x s) - 1) s) (remaining x s)).
Proof.
  intros G pol d k id v r k' Pf R (c & Ec & Ev) O E. subst v. destruct (delete_release G pol d id k r k' Pf E) as (p & Pw & Ew). clear E.
  assert (exists m, get (c_sels c) (view_key (c_view c)) = Some m) as (m & Em).
  { cbn [run_call] in Ew. bnd Ew. destruct v as [xs k1]. unfold delete_selection, the_client in E. rewrite Ec in E. cbn [unwrap bind] in E. destruct (get (c_sels c) (view_key (c_view c))) as [m|]; [eauto|discriminate E]. }
  destruct (each_ready G pol p k id c m Pf R Pw Ec O Em) as [Rd Hs].
  destruct (delete_selection_steps G p k id c m Ec Rd) as (bufs' & m' & (K & C1 & C2) & (K' & D) & E1). destruct Rd as (_ & U & Rd).
  assert (Permutation (keys m) (keys (c_view c))) as Pm.
  { apply NoDup_Permutation; [exact U| |exact Hs]. apply sorted_uniq. apply (i_cl _ (i_0 _ (reach_inv _ _ _ (fed_reach_reach _ _ _ R))) _ _ Ec). }
  cbn [run_call] in Ew. rewrite E1 in Ew. clear E1. destruct (match map _ m with [] => _ | _ => _ end) as [[xs k2]| |] eqn:E0 in Ew; try discriminate. cbn [bind] in Ew. injection Ew as <- <-.
  assert (xs = map (cut (k_buffers k)) m /\ same_state (after_cut k id c bufs' m') k2) as [-> SS].
  { destruct (map (cut (k_buffers k)) m) as [|x l] eqn:Ex.
    - injection E0 as <- <-. split; auto. repeat split.
    - bnd E0. injection E0 as <- <-. split; auto. eapply notify_same; eauto. }
  destruct SS as (N1 & N2 & N3 & N4). cbn [after_cut k_cwd k_clients k_views k_buffers set_cmap set_clients set_buffers] in *.
  assert (cmap k2 = set (cmap k) id (mkCl (c_view c) (set (c_sels c) (view_key (c_view c)) m'))) as Cm by (unfold cmap at 1; now rewrite N2).
  assert (forall b s x, selects k id (c_view c) b s x -> text_of k2 b = Some (remaining x s)) as Ht.
  { intros b s x [S1 S2]. unfold sels_in in S1. rewrite Ec, Em in S1. unfold text_of in S2. destruct (get (k_buffers k) b) as [u|] eqn:Eu; [|discriminate].
    injection S2 as <-. destruct (C2 b s u S1 Eu) as (u' & Eu' & _ & T' & _). unfold text_of. rewrite N3, Eu'. cbn [option_map]. now rewrite T'. }
  split; [|split; [|split; [|split; [|split; [|split; [|split; [|split]]]]]]].
  - exists (keys m), (map (cut (k_buffers k)) m). split; auto. split; auto.
    assert (forall l, (forall e, In e l -> In e m) -> Forall2 (fun b y => exists s x, selects k id (c_view c) b s x /\ y = selected x s) (keys l) (map (cut (k_buffers k)) l)) as HF.
    { induction l as [|[b ss] l IH]; intro Hl; cbn [keys map fst]; [constructor|]. constructor; [|apply IH; intros; apply Hl; now right].
      pose proof (Hl (b, ss) (or_introl eq_refl)) as Hb. destruct (Rd _ Hb) as (u & s & Eu & Es & _). cbn [fst snd] in *. subst ss. exists s, (txt (b_content u)). split.
      - split; [|unfold text_of; now rewrite Eu]. unfold sels_in. rewrite Ec, Em. now apply get_uniq.
      - unfold cut. cbn [fst snd]. now rewrite Eu. }
    apply HF. auto.
  - exact Ht.
  - intros b N. rewrite N3. apply C1. now rewrite Hs.
  - unfold vmap. now rewrite N4.
  - rewrite Cm, keys_set. replace (has (cmap k) id) with true; auto. symmetry. apply has_in. eapply get_key_in; eauto.
  - exists (mkCl (c_view c) (set (c_sels c) (view_key (c_view c)) m')). split; auto. rewrite Cm. apply get_set_same.
  - intros j N. rewrite Cm. now apply get_set_other.
  - intros key b N. unfold sels_in. rewrite Cm, get_set_same, Ec. cbn [c_sels]. now rewrite get_set_other.
  - intros b s x S. split; [|now apply Ht]. destruct S as [S1 S2]. unfold sels_in in S1. rewrite Ec, Em in S1. unfold text_of in S2. destruct (get (k_buffers k) b) as [u|] eqn:Eu; [|discriminate].
    injection S2 as <-. destruct (C2 b s u S1 Eu) as (u' & Eu' & _ & T' & _). unfold sels_in. rewrite Cm, get_set_same. cbn [c_sels]. rewrite get_set_same. rewrite (D b s u' S1 Eu'). now rewrite T'.
Qed.
Print Assumptions C21_editor.

(** ** C22: the acting client, in any state: if no selection reaches the end of a buffer (other than a whole buffer) then its selections
    are inside the buffers after the deletion *)
Theorem C22_any_state_partial : forall G pol d k id v r k', policy_wrap pol \/ policy_succ pol -> fed_reach G pol k -> looks_at k id v -> one_selection_each k id v ->
  (forall b s x, selects k id v b s x -> inner_or_all x s) ->
  run_call G pol d (CDeleteSelection id) k = Ok (r, k') ->
  forall b, shows v b -> exists s x, selects k' id v b s x /\ sel_inside x s.
Proof.
  intros G pol d k id v r k' Pf R Lk O H E b Hb. destruct (proj1 O b Hb) as (s & x & S & I & _). pose proof (H b s x S) as Io.
  destruct (C21_editor G pol d k id v r k' Pf R Lk O E) as (_ & _ & _ & _ & _ & _ & _ & _ & N). exists (sel_clamp (length (remaining x s) - 1) s), (remaining x s). split; [exact (N b s x S)|].
  pose proof (remaining_length x s I) as L. set (n := length (remaining x s)) in *. destruct I as [Ha Hc]. unfold sel_inside, sel_clamp, sel_end, inner_or_all in *. fold n. clearbody n.
  destruct (Nat.ltb_spec (s_anchor s) (s_cursor s)); match goal with |- context [?a <=? ?b] => destruct (Nat.leb_spec a b) end; cbn [s_anchor s_cursor] in *; lia.
Qed.
Print Assumptions C22_any_state_partial.

(** ** sessions *)
Lemma run_fed G pol d cs : Forall feeds cs -> forall k k', fed_reach G pol k -> run_calls G pol d cs k = Ok k' -> fed_reach G pol k'.
Proof.
  induction 1 as [|c cs N F IH]; intros k k' R E; cbn [run_calls] in E; [congruence|]. destruct (run_call G pol d c k) as [[r k1]| |] eqn:E1; try discriminate. cbn [bind] in E.
  eapply IH; [|exact E]. eapply fr_call; eauto.
Qed.
Lemma session_fed cs k : Forall feeds cs -> session cs = Ok k -> fed_reach utf8_graphemes pol_wrap k.
Proof.
  intros F E. unfold session in E. destruct (editor_init _ _ _) as [k0| |] eqn:E0; try discriminate. cbn [bind] in E.
  eapply run_fed; [exact F|eapply fr_init; exact E0|exact E].
Qed.

(** a client that removed a buffer from its view still deletes from it: the hidden buffer "a" loses its first character *)
Definition hidden : list call :=
  [CJoin 1; CScratch 1 (str "a") (str "abc" ++ [LF]); CScratch 1 (str "b") (str "xyz" ++ [LF]); CView 1 (str "b{*}"); CViewAdd 1 (str "a"); CViewRemove 1 (str "a")].
Theorem C21_hidden_refuted : exists k k' v, fed_reach utf8_graphemes pol_wrap k /\ looks_at k 1 v /\ keys v = [str "b"] /\
  run_call utf8_graphemes pol_wrap no_disk (CDeleteSelection 1) k = Ok (RTexts [str "x"; str "a"], k') /\
  text_of k (str "a") = Some (str "abc" ++ [LF]) /\ text_of k' (str "a") = Some (str "bc" ++ [LF]).
Proof.
  exists (get_ok (core_new []) (session hidden)). assert (session hidden = Ok (get_ok (core_new []) (session hidden))) as E by (apply session_state; vm_compute; reflexivity).
  eexists _, _. split; [eapply session_fed; [|exact E]; repeat constructor|]. clear E. split; [eexists; split; vm_compute; reflexivity|]. split; [vm_compute; reflexivity|].
  split; [vm_compute; reflexivity|]. split; vm_compute; reflexivity.
Qed.
Print Assumptions C21_hidden_refuted.
(** the ASCII clause cannot be dropped: with the cursor on the "é" of the second line, nothing is deleted and the empty text returned *)
Definition accent : list call := [CJoin 1; CScratch 1 (str "a") ([97; LF] ++ [195; 169; 98; LF]); CMove 1 MDown false].
Theorem C21_unicode_refuted : exists k k' v s, fed_reach utf8_graphemes pol_wrap k /\ looks_at k 1 v /\ selects k 1 v (str "a") s [97; LF; 195; 169; 98; LF] /\ s_anchor s = 2 /\ s_cursor s = 2 /\
  run_call utf8_graphemes pol_wrap no_disk (CDeleteSelection 1) k = Ok (RTexts [[]], k') /\ text_of k' (str "a") = Some [97; LF; 195; 169; 98; LF].
Proof.
  exists (get_ok (core_new []) (session accent)). assert (session accent = Ok (get_ok (core_new []) (session accent))) as E by (apply session_state; vm_compute; reflexivity).
  eexists _, (whole (str "a")), (mkSel 2 2 1). split; [eapply session_fed; [|exact E]; repeat constructor|]. clear E. split; [eexists; split; vm_compute; reflexivity|]. split; [split; vm_compute; reflexivity|].
  split; [reflexivity|]. split; [reflexivity|]. split; [vm_compute; reflexivity|]. vm_compute; reflexivity.
Qed.
Print Assumptions C21_unicode_refuted.

(** the hypotheses are met in a session that is not careful: two clients, a buffer without a final newline, a selection up to its end *)
Definition not_careful : list call :=
  [CJoin 1; CScratch 1 (str "a") (str "ab" ++ [LF; 99; 100]); CJoin 2; CMove 1 MEnd true; CMessage (Some 2) [195; 169]].
Example C21_demo : exists k k', fed_reach utf8_graphemes pol_wrap k /\ looks_at k 1 (whole (str "a")) /\ one_selection_each k 1 (whole (str "a")) /\
  run_call utf8_graphemes pol_wrap no_disk (CDeleteSelection 1) k = Ok (RTexts [str "ab" ++ [LF; 99; 100]], k') /\ text_of k' (str "a") = Some [LF].
Proof.
  exists (get_ok (core_new []) (session not_careful)). assert (session not_careful = Ok (get_ok (core_new []) (session not_careful))) as E by (apply session_state; vm_compute; reflexivity).
  eexists. split; [eapply session_fed; [|exact E]; repeat constructor|]. clear E. split; [eexists; split; vm_compute; reflexivity|]. split.
  - split.
    + intros b Hb. assert (b = str "a") as ->. { destruct Hb as [Hb|[]]. symmetry. exact Hb. }
      exists (mkSel 0 4 2), (str "ab" ++ [LF; 99; 100]). split; [split; vm_compute; reflexivity|]. split; [split; cbn; lia|]. repeat constructor; cbn; lia.
    + intros b Hb. unfold sels_in in Hb. revert Hb. match goal with |- context [get (cmap ?k) 1] => let c := eval vm_compute in (get (cmap k) 1) in replace (get (cmap k) 1) with c by (vm_compute; reflexivity) end.
      cbn [c_sels]. match goal with |- context [get ?m (view_key ?v)] => let c := eval vm_compute in (get m (view_key v)) in replace (get m (view_key v)) with c by (vm_compute; reflexivity) end.
      intro Hb. left. cbn [get] in Hb. destruct (eqb b [97]) eqn:Q; [apply eqb_ok in Q; subst b; reflexivity|congruence].
  - split; vm_compute; reflexivity.
Qed.
