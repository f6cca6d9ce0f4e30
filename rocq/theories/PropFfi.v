(** The C interface: iterators (C54), the last error (C55), events (C63). *)
From Coq Require Import String List Arith ZArith Lia Bool.
From Verif Require Import Base ListFacts Maps Proto Payload Conn PropConn Ffi.
Import ListNotations.

(** ** C54 *)
(** [n] calls of the next-item function: what they return, and the iterator after them *)
Fixpoint calls {A B} (conv : A -> res B) (n : nat) (i : iter A) : res (list (option B) * iter A) :=
  match n with
  | 0 => Ok ([], i)
  | S n => '(x, i) <- next_item conv i ;; '(xs, i) <- calls conv n i ;; Ok (x :: xs, i)
  end.
Lemma mapM_nth {A B} (conv : A -> res B) l ys : mapM conv l = Ok ys -> forall k, match nth_error l k with
  | Some x => exists y, conv x = Ok y /\ nth_error ys k = Some y | None => nth_error ys k = None end.
Proof.
  revert ys. induction l as [|x l IH]; intros ys H k; cbn [mapM] in H; [injection H as <-; destruct k; reflexivity|].
  destruct (conv x) as [y| |] eqn:E; cbn [bind] in H; try discriminate. destruct (mapM conv l) as [ys'| |]; cbn [bind] in H; try discriminate. injection H as <-.
  destruct k as [|k]; cbn [nth_error]; [eauto|]. now apply IH.
Qed.
Lemma calls_from {A B} (conv : A -> res B) l ys : mapM conv l = Ok ys -> forall n p, exists i, calls conv n (mkIter l p) = Ok (map (fun k => nth_error ys k) (seq p n), i).
Proof.
  intros H. assert (forall n p, length l <= p -> exists i, calls conv n (mkIter l p) = Ok (map (fun k => nth_error ys k) (seq p n), i)) as Past.
  { induction n as [|n IH]; intros p L; [eexists; reflexivity|]. cbn [calls seq map]. unfold next_item. cbn [it_items it_next]. pose proof (mapM_nth conv l ys H) as M.
    assert (forall k, p <= k -> nth_error ys k = None) as Y. { intros k K. specialize (M k). now rewrite (proj2 (nth_error_None l k)) in M by lia. }
    rewrite (proj2 (nth_error_None l p)) by lia. cbn [bind]. destruct (IH p L) as (i & ->). cbn [bind]. exists i. do 2 f_equal. rewrite (Y p) by lia. f_equal.
    assert (forall s, p <= s -> map (fun k => nth_error ys k) (seq s n) = repeat None n) as R. { clear - Y. induction n as [|n IH]; intros s S; cbn [seq map repeat]; auto. rewrite Y by auto. f_equal. apply IH. lia. }
    rewrite !R by lia. reflexivity. }
  induction n as [|n IH]; intro p; [eexists; reflexivity|]. destruct (le_lt_dec (length l) p) as [L|L]; [now apply Past|].
  cbn [calls seq map]. unfold next_item. cbn [it_items it_next]. pose proof (mapM_nth conv l ys H p) as M. destruct (nth_error l p) as [x|] eqn:E; [|apply nth_error_None in E; lia].
  destruct M as (y & Ey & Eys). rewrite Ey. cbn [bind]. destruct (IH (S p)) as (i & ->). cbn [bind]. rewrite Eys. eauto.
Qed.
(** The k-th call returns the k-th item, converted, and null from the end of the list on, for ever. *)
Theorem C54_partial : forall (A B : Type) (conv : A -> res B) l ys, mapM conv l = Ok ys ->
  forall n, exists i, calls conv n (iter_of l) = Ok (map (fun k => nth_error ys k) (seq 0 n), i).
Proof. intros A B conv l ys H n. now apply calls_from. Qed.
Print Assumptions C54_partial.
Lemma calls_S {A B} (conv : A -> res B) n i : calls conv (S n) i = ('(x, i) <- next_item conv i ;; '(xs, i) <- calls conv n i ;; Ok (x :: xs, i)).
Proof. reflexivity. Qed.
(** A fragment with a NUL byte in it cannot be handed over: the call panics, whatever came before it. *)
Theorem C54_refuted : forall pre t f rest, Forall (fun x => ~ In 0 (fr_text x)) pre -> In 0 t ->
  exists why, calls conv_fragment (S (length pre)) (iter_of (pre ++ mkFrag t f :: rest)) = Panic why.
Proof.
  intros pre t f rest F I. assert (forall k p, k + p = length pre -> exists why, calls conv_fragment (S k) (mkIter (pre ++ mkFrag t f :: rest) p) = Panic why) as H; [|apply H; lia].
  induction k as [|k IH]; intros p E; rewrite calls_S; unfold next_item at 1; cbn [it_items it_next].
  - rewrite nth_error_app2 by lia. replace (p - length pre) with 0 by lia. cbn [nth_error]. unfold conv_fragment, cstring. cbn [fr_text].
    replace (existsb (Nat.eqb 0) t) with true by (symmetry; apply existsb_exists; exists 0; auto). cbn [bind]. eauto.
  - rewrite nth_error_app1 by lia. destruct (nth_error pre p) as [x|] eqn:Ex; [|apply nth_error_None in Ex; lia]. apply nth_error_In in Ex. rewrite Forall_forall in F. specialize (F x Ex).
    assert (exists y, conv_fragment x = Ok y) as (y & ->). { unfold conv_fragment, cstring. replace (existsb (Nat.eqb 0) (fr_text x)) with false. 2:{ symmetry. apply not_true_is_false. intro X. apply existsb_exists in X. destruct X as (z & Hz & E0). apply Nat.eqb_eq in E0. subst z. auto. }
      cbn [bind]. destruct (fr_face x); eexists; reflexivity. }
    cbn [bind]. destruct (IH (S p) ltac:(lia)) as (why & W). rewrite W. cbn [bind]. eauto.
Qed.
Print Assumptions C54_refuted.

(** ** C55 *)
(** what a call says about the pending error *)
Definition says_pending (c : call) : option (option text) :=
  match c with SetError m => Some (Some m) | Message (Some _) => Some None | _ => None end.
(** whether every message was fetched with a large enough buffer *)
Lemma pending_spec l : pending_after l = latest says_pending l None.
Proof.
  unfold pending_after. generalize (@None text) as p. induction l as [|c l IH]; intro p; cbn [fold_left latest]; auto. rewrite IH. f_equal.
  destruct c as [m| |[b|]]; cbn; auto. destruct p as [m|]; auto. now destruct (length b <=? length m).
Qed.
(** After any calls, the pending error is the last one set that was not fetched; its length is reported; a buffer with room for
    it and the final NUL receives it; asking for the length or passing a null buffer does not consume it. *)
Theorem C55_partial : forall l,
  (forall m, latest says_pending l None = Some m ->
     snd (fst (last_error_call (pending_after l) Length)) = Z.of_nat (length m) /\
     pending_after (l ++ [Length]) = Some m /\ pending_after (l ++ [Message None]) = Some m /\ snd (fst (last_error_call (pending_after l) (Message None))) = (-1)%Z /\
     forall b, length m < length b -> exists b', last_error_call (pending_after l) (Message (Some b)) = (None, Z.of_nat (length m), Some b') /\ length b' = length b /\
       firstn (S (length m)) b' = m ++ [0] /\ skipn (S (length m)) b' = skipn (S (length m)) b) /\
  (latest says_pending l None = None -> last_error_call (pending_after l) Length = (None, (-1)%Z, None) /\ forall b, last_error_call (pending_after l) (Message (Some b)) = (None, 0%Z, Some b)).
Proof.
  intro l. rewrite pending_spec. split.
  - intros m E. rewrite E. assert (forall c, pending_after (l ++ [c]) = fst (fst (last_error_call (Some m) c))) as A by (intro c; unfold pending_after; rewrite fold_left_app; cbn [fold_left]; fold (pending_after l); now rewrite pending_spec, E).
    rewrite !A. cbn [last_error_call fst snd]. repeat (split; [reflexivity|]). intros b L. replace (length b <=? length m) with false by (symmetry; apply Nat.leb_gt; lia). eexists. split; [reflexivity|].
    assert (length (m ++ [0]) = S (length m)) as Lm by (rewrite app_length; cbn; lia). change (m ++ 0 :: skipn (S (length m)) b) with (m ++ [0] ++ skipn (S (length m)) b). rewrite app_assoc. split; [|split].
    + rewrite app_length, skipn_length. lia.
    + rewrite firstn_app, Lm, Nat.sub_diag, firstn_O, app_nil_r. apply firstn_all2. lia.
    + rewrite skipn_app, Lm, Nat.sub_diag, skipn_O. rewrite skipn_all2 by lia. reflexivity.
  - intro E. rewrite E. split; auto.
Qed.
Print Assumptions C55_partial.
(** A buffer that is too small is reported, but the message is lost. *)
Theorem C55_refuted : forall l m b, latest says_pending l None = Some m -> length b <= length m ->
  last_error_call (pending_after l) (Message (Some b)) = (None, (-2)%Z, Some b) /\ pending_after (l ++ [Message (Some b)]) = None.
Proof.
  intros l m b E L. unfold pending_after at 2. rewrite fold_left_app. cbn [fold_left]. fold (pending_after l). rewrite pending_spec, E. cbn [last_error_call].
  replace (length b <=? length m) with true by (symmetry; now apply Nat.leb_le). auto.
Qed.
Print Assumptions C55_refuted.
Example C55_demo : let l := [SetError (str "old"); Length; SetError (str "no"); Message None; Length] in
  latest says_pending l None = Some (str "no") /\ last_error_call (pending_after l) (Message (Some [1; 2; 3; 4])) = (None, 2%Z, Some [110; 111; 0; 4]) /\
  last_error_call (pending_after l) (Message (Some [1; 2])) = (None, (-2)%Z, Some [1; 2]).
Proof. vm_compute. auto. Qed.

(** ** C63: events handed over *)
(** calling until null gives [ys] *)
Definition enumerated {A B} (conv : A -> res B) (i : iter A) (ys : list B) : Prop := exists i', calls conv (S (length ys)) i = Ok (map Some ys ++ [None], i').
(** the names of the faces in C *)
Definition c_face (f : face) : text := str match f with FDefault => "Default" | FError => "Error" | FMatch => "Match" | FPrompt => "Prompt" | FSelection => "Selection" end.
Definition c_text (t : rich) (i : iter fragment) : Prop := enumerated conv_fragment i (map (fun f => mkCT (fr_text f) (c_face (fr_face f))) t).
Definition c_entry (e : entry) (c : c_menu_item) : Prop := cmi_value c = en_value e /\ cmi_descr c = en_descr e /\ c_text (en_text e) (cmi_text c).
Definition c_status (s : status_item) (c : c_status_item) : Prop := csi_index c = st_index s /\ c_text (st_text s) (csi_text c).
Definition c_lens_ok (l : wlens) (c : c_lens) : Prop :=
  cl_first c = Z.of_nat (wl_first l) /\ exists lines, enumerated conv_line (cl_lines c) lines /\ Forall2 c_text (wl_lines l) lines.
Definition c_item (i : witem) (c : c_view_item) : Prop :=
  cvi_buffer c = wi_buffer i /\ cvi_start c = Z.of_nat (wi_start i) /\ cvi_end c = Z.of_nat (wi_end i) /\
  exists lenses, enumerated conv_lens (cvi_lenses c) lenses /\ Forall2 c_lens_ok (wi_lenses i) lenses.
(** the C event says the same as the client's event *)
Definition same_event (e : cevent) (c : c_event) : Prop :=
  match e, c with
  | CEcho t, CeEcho i => c_text t i
  | CInfo a b, CeInfo a' b' => a' = a /\ b' = b
  | CMenu m, CeMenu a b s i n => a = cm_command m /\ b = cm_title m /\ s = cm_search m /\ n = Z.of_nat (cm_selected m) /\ exists es, enumerated conv_entry i es /\ Forall2 c_entry (cm_entries m) es
  | CStatus l, CeStatus i => exists es, enumerated conv_status i es /\ Forall2 c_status l es
  | CView l, CeView i => exists es, enumerated conv_view i es /\ Forall2 c_item l es
  | _, _ => False
  end.
Definition no_nul (t : text) : Prop := ~ In 0 t.
Definition rich_ok (t : rich) : Prop := Forall (fun f => no_nul (fr_text f)) t.
Definition u32 (n : nat) : Prop := (Z.of_nat n < 4294967296)%Z.
(** no NUL, numbers on 32 bits, and one of the five kinds of event *)
Definition representable (e : cevent) : Prop :=
  match e with
  | CEcho t => rich_ok t
  | CInfo a b => no_nul a /\ no_nul b
  | CMenu m => no_nul (cm_command m) /\ no_nul (cm_title m) /\ no_nul (cm_search m) /\ u32 (cm_selected m) /\
      Forall (fun x => no_nul (en_value x) /\ rich_ok (en_text x) /\ (forall d, en_descr x = Some d -> no_nul d)) (cm_entries m)
  | CStatus l => Forall (fun s => (-2147483648 <= st_index s <= 2147483647)%Z /\ rich_ok (st_text s)) l
  | CView l => Forall (fun i => no_nul (wi_buffer i) /\ u32 (wi_start i) /\ u32 (wi_end i) /\ Forall (fun l => u32 (wl_first l) /\ Forall rich_ok (wl_lines l)) (wi_lenses i)) l
  | CHint _ | CNoop => False
  end.
Lemma cstring_ok t : no_nul t -> cstring t = Ok t.
Proof. intro N. unfold cstring. replace (existsb (Nat.eqb 0) t) with false; auto. symmetry. apply not_true_is_false. intro X. apply existsb_exists in X. destruct X as (z & Hz & E). apply Nat.eqb_eq in E. subst z. auto. Qed.
Lemma mapM_all {A B} (conv : A -> res B) f l : (forall x, In x l -> conv x = Ok (f x)) -> mapM conv l = Ok (map f l).
Proof. induction l as [|x l IH]; intro H; cbn [mapM map]; auto. rewrite H by now left. rewrite IH by (intros; apply H; now right). reflexivity. Qed.
Lemma map_nth_seq {A} (ys : list A) : map (fun k => nth_error ys k) (seq 0 (length ys)) = map Some ys.
Proof. induction ys as [|y ys IH]; auto. cbn [length seq map nth_error]. f_equal. rewrite <- seq_shift, map_map. exact IH. Qed.
Lemma enumerate {A B} (conv : A -> res B) f l : (forall x, In x l -> conv x = Ok (f x)) -> enumerated conv (iter_of l) (map f l).
Proof.
  intro H. apply mapM_all in H. destruct (C54_partial A B conv l (map f l) H (S (length (map f l)))) as (i & E). exists i. rewrite E. do 2 f_equal. rewrite seq_S, map_app, map_nth_seq. cbn [map Nat.add].
  now rewrite (proj2 (nth_error_None (map f l) (length (map f l)))) by lia.
Qed.
Lemma forall2_map {A B} (R : A -> B -> Prop) f l : (forall x, In x l -> R x (f x)) -> Forall2 R l (map f l).
Proof. induction l as [|x l IH]; intro H; cbn [map]; constructor; [apply H; now left|]. apply IH. intros; apply H; now right. Qed.
Lemma text_ok t : rich_ok t -> c_text t (iter_of t).
Proof.
  intro H. apply enumerate. intros f Hf. unfold conv_fragment. unfold rich_ok in H. rewrite Forall_forall in H. rewrite cstring_ok by now apply H. cbn [bind].
  rewrite cstring_ok; [destruct (fr_face f); reflexivity|]. destruct (fr_face f); vm_compute; intuition discriminate.
Qed.
Lemma u32_id n : u32 n -> as_u32 n = Z.of_nat n.
Proof. intro H. unfold as_u32. apply Z.mod_small. unfold u32 in H. lia. Qed.
Lemma i32_id z : (-2147483648 <= z <= 2147483647)%Z -> as_i32 z = z.
Proof. intro H. unfold as_i32. rewrite Z.mod_small by lia. lia. Qed.
(** A representable event is handed over and, walked to the end, says the same. *)
Theorem C63_partial : forall e, representable e -> exists c, conv_event e = Ok c /\ same_event e c.
Proof.
  intros e R. destruct e as [|t|h|a b|m|l|l]; cbn [representable] in R; try contradiction; cbn [conv_event].
  - eexists. split; [reflexivity|]. now apply text_ok.
  - destruct R. rewrite !cstring_ok by auto. cbn [bind]. eexists. split; [reflexivity|]. split; reflexivity.
  - destruct R as (R1 & R2 & R3 & R4 & R5). rewrite !cstring_ok by auto. cbn [bind]. eexists. split; [reflexivity|]. cbn [same_event]. rewrite u32_id by auto. repeat (split; [reflexivity|]). rewrite Forall_forall in R5.
    exists (map (fun x => mkCMI (en_value x) (iter_of (en_text x)) (en_descr x)) (cm_entries m)). split.
    + apply enumerate. intros x Hx. destruct (R5 x Hx) as (A & B & C). unfold conv_entry. rewrite cstring_ok by auto. cbn [bind]. destruct (en_descr x) as [d|]; [rewrite (cstring_ok d) by now apply C|]; reflexivity.
    + apply forall2_map. intros x Hx. destruct (R5 x Hx) as (A & B & C). repeat split. now apply text_ok.
  - eexists. split; [reflexivity|]. cbn [same_event]. rewrite Forall_forall in R. exists (map (fun s => mkCSI (st_index s) (iter_of (st_text s))) l). split.
    + apply enumerate. intros s Hs. destruct (R s Hs) as (A & B). unfold conv_status. now rewrite i32_id.
    + apply forall2_map. intros s Hs. destruct (R s Hs) as (A & B). split; auto. now apply text_ok.
  - eexists. split; [reflexivity|]. cbn [same_event]. rewrite Forall_forall in R. exists (map (fun i => mkCVI (wi_buffer i) (Z.of_nat (wi_start i)) (Z.of_nat (wi_end i)) (iter_of (wi_lenses i))) l). split.
    + apply enumerate. intros i Hi. destruct (R i Hi) as (A & B & C & D). unfold conv_view. rewrite cstring_ok by auto. cbn [bind]. now rewrite !u32_id.
    + apply forall2_map. intros i Hi. destruct (R i Hi) as (A & B & C & D). repeat (split; [reflexivity|]). cbn [cvi_lenses]. rewrite Forall_forall in D.
      exists (map (fun x => mkCL (iter_of (wl_lines x)) (Z.of_nat (wl_first x))) (wi_lenses i)). split.
      * apply enumerate. intros x Hx. destruct (D x Hx) as (F & G). unfold conv_lens. now rewrite u32_id.
      * apply forall2_map. intros x Hx. destruct (D x Hx) as (F & G). split; auto. cbn [cl_lines]. exists (map iter_of (wl_lines x)). split; [now apply enumerate|]. rewrite Forall_forall in G.
        apply forall2_map. intros t Ht. apply text_ok. now apply G.
Qed.
Print Assumptions C63_partial.
(** Hints, and everything the client ignores (responses, unknown notifications), crash the program using the interface. *)
Theorem C63_refuted : (forall l, exists why, conv_event (CHint l) = Panic why) /\ (forall s r, exists why, conv_event (snd (event_update s (EvResponse r))) = Panic why) /\
  forall l s, exists e, Proto.parse_event (print_event (EvNotification (new_notification (str "hint") (Some (enc_hint l))))) = Some e /\ exists why, conv_event (snd (event_update s e)) = Panic why.
Proof.
  split; [intro l; eexists; reflexivity|]. split; [intros s r; eexists; reflexivity|]. intros l s. destruct C38_payloads as (_ & H & _). destruct (H l) as (n & P & M & D). eexists. split; [exact P|].
  cbn [event_update]. rewrite M. replace (eqb (str "hint") (str "echo")) with false by reflexivity. rewrite eqb_refl, D. cbn [snd conv_event]. eauto.
Qed.
Print Assumptions C63_refuted.
Example C63_demo : representable (CView [mkWI (str "b") 1 2 [mkWL [[mkFrag (str "x") FDefault; mkFrag (str "y") FSelection]; []] 1]]) /\
  match calls conv_fragment 3 (iter_of [mkFrag (str "x") FDefault; mkFrag (str "y") FSelection]) with
  | Ok (l, _) => l = [Some (mkCT (str "x") (str "Default")); Some (mkCT (str "y") (str "Selection")); None] | _ => False end.
Proof. split; [|vm_compute; reflexivity]. repeat (constructor; cbn); unfold no_nul, u32; cbn; intuition lia. Qed.
