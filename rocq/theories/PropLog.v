(** C62: messages and errors are logged, and echoed to their addressees only. *)
From Coq Require Import String List Arith Lia Bool Permutation.
From Verif Require Import Base ListFacts LineSpec PieceTable PieceTableFacts Coords CoordsMore Utf8 GraphemeInst HistoryFacts History Diff Selection NavSpec Maps StackMap
  Fmt Buffer View ViewSpec ViewFacts Utf8Facts Normalize Core CoreSpec CoreInv CoreOps PropCore CoreTame CoreSafe CoreDelete CoreSafeMore PropSafe.
Import ListNotations.

(** ** specification *)
(** what [k'] has sent since [k]: the refreshed views of the clients looking at buffer [b], one each, then [m] *)
Definition refreshed_then (k k' : core) (b : text) (m : sent) : Prop :=
  exists ids ps, k_sent k' = k_sent k ++ map (fun e => mkSent (Some [fst e]) (NView (snd e))) ps ++ [m] /\
    map fst ps = ids /\ NoDup ids /\ forall id, In id ids <-> exists v, looks_at k id v /\ shows v b.
(** the buffer [b] is new and contains [line], or was open; every other buffer, every view and every client is as before *)
Definition only_buffer (k k' : core) (b line : text) : Prop :=
  k_clients k' = k_clients k /\ k_views k' = k_views k /\ k_cwd k' = k_cwd k /\
  (forall c, c <> b -> get (k_buffers k') c = get (k_buffers k) c) /\
  (~ open k b -> get (k_buffers k') b = Some (new_scratch b line)) /\ open k' b.
Definition who (c : option nat) : text := match c with Some id => dec id | None => str "*" end.
Definition to_whom (c : option nat) : option (list nat) := match c with Some id => Some [id] | None => None end.

(** ** proofs *)
Lemma filter_nodup {K V} (f : K * V -> bool) (m : amap K V) : uniq m -> NoDup (map fst (filter f m)).
Proof.
  unfold uniq, keys. induction m as [|[k v] m IH]; cbn [filter map fst]; intro U; [constructor|]. inversion U as [|? ? N U']; subst.
  destruct (f (k, v)); auto. cbn [map fst]. constructor; auto. intro X. apply N. apply in_map_iff in X. destruct X as (e & <- & X). apply filter_In in X. destruct X as [X _]. apply in_map_iff. eauto.
Qed.
Lemma lookers k b id : inv k -> open k b -> (In id (clients_with_buffer k b) <-> exists v, looks_at k id v /\ shows v b).
Proof.
  intros I O. unfold clients_with_buffer, buffer_exists. apply has_in in O. rewrite O. cbn [negb]. pose proof (i_uc _ (i_0 _ I)) as U. split.
  - intro H. apply in_map_iff in H. destruct H as ([j c] & <- & H). apply filter_In in H. destruct H as [H S]. cbn [fst snd] in *. exists (c_view c). split; [|now apply has_in].
    exists c. split; auto. now apply get_uniq.
  - intros (v & (c & E & <-) & S). apply in_map_iff. exists (id, c). split; auto. apply filter_In. split; [now apply get_in|]. now apply has_in.
Qed.
Lemma append_log G b x k k1 k' m : inv k -> append_to G b x k = Ok k1 -> k' = emit k1 [m] -> refreshed_then k k' b m /\ only_buffer k k' b x.
Proof.
  intros I E ->. pose proof (append_frame _ _ _ _ _ E) as A. destruct A as (A1 & A2 & A3 & b' & A4 & A5). unfold append_to in E. bnd E.
  assert (cmap v = cmap k /\ k_sent v = k_sent k /\ open v b) as (C & S & O).
  { unfold buffer_exists, has in E0. destruct (get (k_buffers k) b) as [u|] eqn:Eb; cbn [negb] in E0.
    - cbn [unwrap bind] in E0. bnd E0. injection E0 as <-. repeat split. unfold open. cbn. apply in_keys_set. now left.
    - injection E0 as <-. repeat split. unfold open. cbn. apply in_keys_set. now left. }
  assert (get (k_buffers (emit k1 [m])) b = Some b') as Gb by (cbn; rewrite A4; apply get_set_same).
  apply notify_frame in E. destruct E as (ps & P1 & -> & _). split.
  - exists (clients_with_buffer v b), ps. split; [cbn; rewrite S, <- app_assoc; reflexivity|]. split; auto.
    assert (clients_with_buffer v b = map fst (filter (fun e => contains_buffer (c_view (snd e)) b) (cmap k))) as Ec.
    { unfold clients_with_buffer, buffer_exists. apply has_in in O. rewrite O. cbn [negb]. now rewrite C. }
    rewrite Ec. split; [apply filter_nodup, (i_uc _ (i_0 _ I))|]. intro id. pose proof (i_uc _ (i_0 _ I)) as U. split.
    + intro H. apply in_map_iff in H. destruct H as ([j c] & <- & H). apply filter_In in H. destruct H as [H Sh]. cbn [fst snd] in *. exists (c_view c). split; [|now apply has_in].
      exists c. split; auto. now apply get_uniq.
    + intros (w & (c & Eg & <-) & Sh). apply in_map_iff. exists (id, c). split; auto. apply filter_In. split; [now apply get_in|]. now apply has_in.
  - split; [exact A2|]. split; [exact A3|]. split; [exact A1|]. split; [intros c N; cbn in A4 |- *; rewrite A4; now apply get_set_other|]. split; [|eapply get_key_in; exact Gb].
    intro N. rewrite Gb. f_equal. destruct (get (k_buffers k) b) as [u|] eqn:Eb; [|exact A5]. exfalso. apply N. eapply get_key_in; exact Eb.
Qed.

Theorem C62_message : forall G pol d k c x r k', reach G pol k -> run_call G pol d (CMessage c x) k = Ok (r, k') ->
  refreshed_then k k' (str "*messages*") (mkSent (to_whom c) (NEcho x false)) /\
  only_buffer k k' (str "*messages*") (who c ++ str "|" ++ x ++ [LF]).
Proof.
  intros G pol d k c x r k' R E. cbn [run_call] in E. bnd E. injection E as <- <-. unfold message in E0. bnd E0. injection E0 as <-.
  eapply append_log; [eapply reach_inv; eauto|exact E|reflexivity].
Qed.
Print Assumptions C62_message.
Theorem C62_error : forall G pol d k c tag x r k', reach G pol k -> run_call G pol d (CError c tag x) k = Ok (r, k') ->
  refreshed_then k k' (str "*errors*") (mkSent (to_whom c) (NEcho (normalize_error_message (tag ++ str ": " ++ x)) true)) /\
  only_buffer k k' (str "*errors*") (who c ++ str "|" ++ (tag ++ str ": " ++ x) ++ [LF]).
Proof.
  intros G pol d k c tag x r k' R E. cbn [run_call] in E. bnd E. injection E as <- <-. unfold error in E0. bnd E0. injection E0 as <-.
  eapply append_log; [eapply reach_inv; eauto|exact E|reflexivity].
Qed.
Print Assumptions C62_error.
(** the debug log *)
Theorem C62_debug : forall G pol d k x r k', reach G pol k -> run_call G pol d (CDebug x) k = Ok (r, k') ->
  (exists ids ps, k_sent k' = k_sent k ++ map (fun e => mkSent (Some [fst e]) (NView (snd e))) ps /\
    map fst ps = ids /\ NoDup ids /\ forall id, In id ids <-> exists v, looks_at k id v /\ shows v b_debug) /\
  only_buffer k k' b_debug (x ++ [LF]).
Proof.
  intros G pol d k x r k' R E. cbn [run_call] in E. bnd E. injection E as <- <-. unfold debug in E0.
  destruct (append_log G b_debug (x ++ [LF]) k v _ (mkSent None (NInfo [] [])) (reach_inv _ _ _ R) E0 eq_refl) as [(ids & ps & A & B & C & D) (O1 & O2 & O3 & O4 & O5 & O6)].
  split; [|repeat split; auto]. exists ids, ps. split; auto. cbn in A. rewrite app_assoc in A. now apply app_inj_tail in A.
Qed.

(** the text of the logs: what was there, followed by the line.  For the states of careful sessions (CoreTame.v) and
    ASCII texts, where logging moreover always succeeds. *)
Definition log_text (k : core) (b : text) : text := match text_of k b with Some x => x | None => [] end.
Lemma append_text G b x k : safe full k -> good_name b -> plain x -> terminated x = true ->
  exists k1, append_to G b x k = Ok k1 /\ text_of k1 b = Some (log_text k b ++ x).
Proof.
  intros S Nb P T. destruct (append_safe full G b x k S Nb P T) as (k1 & E & S1 & A). exists k1. split; auto.
  destruct (append_frame _ _ _ _ _ E) as (_ & _ & _ & b' & B1 & B2). unfold log_text, text_of. rewrite B1, get_set_same. cbn [option_map].
  destruct (get (k_buffers k) b) as [u|] eqn:Eb; cbn [option_map].
  - destruct (sf_bufs _ _ S _ _ Eb) as [_ Gu]. destruct (good_append x u Gu P T) as (u' & E1 & _ & E2). rewrite B2 in E1. injection E1 as ->. now rewrite E2.
  - subst b'. cbn [app]. f_equal. destruct x as [|c x]; [discriminate T|]. cbn [new_scratch b_content].
    destruct (edited_doc_acc (pt_with_text (c :: x)) (c :: x)) as [_ E1]; auto. exists pol_wrap, (c :: x), []. split; [discriminate|]. split; [reflexivity|]. split; [reflexivity|].
    left. split; [apply pol_wrap_ok|constructor].
Qed.


Theorem C62_message_log_partial : forall G pol d k c x, policy_wrap pol \/ policy_succ pol -> tame_reach G pol k -> plain x ->
  exists r k', run_call G pol d (CMessage c x) k = Ok (r, k') /\ text_of k' (str "*messages*") = Some (log_text k (str "*messages*") ++ who c ++ str "|" ++ x ++ [LF]).
Proof.
  intros G pol d k c x Pf R P. apply tame_safe in R; auto. destruct (append_text G (str "*messages*") (who c ++ str "|" ++ x ++ [LF]) k R good_messages) as (k1 & E & T).
  - repeat apply plain_app; auto using plain_origin, plain_lf. apply plain_str. reflexivity.
  - rewrite !app_assoc. apply term_lf.
  - cbn [run_call]. unfold message. change (origin c) with (who c). rewrite E. cbn [bind]. eexists _, _. split; [reflexivity|]. exact T.
Qed.
Print Assumptions C62_message_log_partial.
Theorem C62_error_log_partial : forall G pol d k c tag x, policy_wrap pol \/ policy_succ pol -> tame_reach G pol k -> plain tag -> plain x ->
  exists r k', run_call G pol d (CError c tag x) k = Ok (r, k') /\ text_of k' (str "*errors*") = Some (log_text k (str "*errors*") ++ who c ++ str "|" ++ (tag ++ str ": " ++ x) ++ [LF]).
Proof.
  intros G pol d k c tag x Pf R Pt P. apply tame_safe in R; auto. destruct (append_text G (str "*errors*") (who c ++ str "|" ++ (tag ++ str ": " ++ x) ++ [LF]) k R good_errors) as (k1 & E & T).
  - repeat apply plain_app; auto using plain_origin, plain_lf; apply plain_str; reflexivity.
  - rewrite !app_assoc. apply term_lf.
  - cbn [run_call]. unfold error. change (origin c) with (who c). rewrite E. cbn [bind]. eexists _, _. split; [reflexivity|]. exact T.
Qed.
(** a session meeting the hypotheses: client 2 looks at the log *)
Definition logging : list call := [CJoin 1; CMessage (Some 1) (str "hello"); CJoin 2; CView 2 (str "*messages*")].
Example C62_demo : exists k k', session logging = Ok k /\ reach utf8_graphemes pol_wrap k /\
  run_call utf8_graphemes pol_wrap no_disk (CMessage None (str "bye")) k = Ok (RUnit, k') /\
  text_of k' (str "*messages*") = Some (str "1|hello" ++ [LF] ++ str "*|bye" ++ [LF]) /\
  map m_to (news k k') = [Some [2]; None].
Proof.
  assert (session logging = Ok (get_ok (core_new []) (session logging))) as E by (apply session_state; vm_compute; reflexivity).
  eexists _, _. split; [exact E|]. split; [eapply session_reach; exact E|]. split; [vm_compute; reflexivity|]. vm_compute. split; reflexivity.
Qed.
