(** C72: what a client is shown is current. *)
From Coq Require Import String List Arith Lia Bool Permutation.
From Verif Require Import Base ListFacts PieceTable PieceTableSpec History HistoryFacts Coords Utf8 Diff Selection Maps StackMap Fmt Buffer View ViewSpec ViewFacts Utf8Facts GraphemeInst Core CoreSpec CoreInv CoreOps CoreTame CoreSafe CoreSafeMore PropCore FreshSpec.
Import ListNotations.

(** ** what a display depends on *)
Definition item_shown (v : view) (i : vitem) : Prop := match i with VHeader b _ => shows v b | VLens x => shows v (l_buffer x) end.
Lemma as_vec_shown v items : as_vec v = Ok items -> view_wf v -> Forall (item_shown v) items.
Proof.
  intros E [_ W]. revert items E. induction v as [|[n g] v IH]; cbn [as_vec]; intros items E; [injection E as <-; constructor|].
  bnd E. bnd E. injection E as <-. inversion W as [|? ? (_ & _ & W2) W3]; subst. cbn [fst snd] in W2. constructor; [now left|]. apply Forall_app. split.
  - apply Forall_map. eapply Forall_impl; [|exact W2]. intros x Hx. cbn. now left.
  - eapply Forall_impl; [|exact (IH W3 _ eq_refl)]. intros [b f|x] H; cbn in *; now right.
Qed.
Definition same_content (bufs bufs' : amap text buffer) (b : text) : Prop := option_map b_content (get bufs' b) = option_map b_content (get bufs b).
Definition pick (s : option (amap text (list sel))) (b : text) : option (list sel) := match s with Some m => get m b | None => None end.
Lemma show_lens_ext G bufs bufs' s s' x : same_content bufs bufs' (l_buffer x) -> pick s' (l_buffer x) = pick s (l_buffer x) -> show_lens G bufs' s' x = show_lens G bufs s x.
Proof.
  unfold same_content. intros C P. unfold show_lens. destruct (get bufs' (l_buffer x)) as [b'|], (get bufs (l_buffer x)) as [b|]; cbn [option_map] in C; try discriminate; [|reflexivity]. injection C as C. cbn [unwrap bind].
  assert ((match s' with None => Ok [] | Some ss => match get ss (l_buffer x) with None => Ok [] | Some ss => xs <- mapM (sel_spans G (b_content b')) ss ;; Ok (concat xs) end end)
        = (match s with None => Ok [] | Some ss => match get ss (l_buffer x) with None => Ok [] | Some ss => xs <- mapM (sel_spans G (b_content b)) ss ;; Ok (concat xs) end end)) as ->.
  { rewrite C. destruct s' as [m'|], s as [m|]; cbn [pick] in P; try rewrite P; try rewrite <- P; reflexivity. }
  unfold buf_lines. now rewrite C.
Qed.
Lemma loop_ext G v bufs bufs' s s' : (forall b, shows v b -> same_content bufs bufs' b /\ pick s' b = pick s b) -> forall items, Forall (item_shown v) items -> forall params cur fl,
  notif_loop G bufs' s' items params cur fl = notif_loop G bufs s items params cur fl.
Proof.
  intros H items F. induction F as [|[b f|x] items Hi F IH]; intros params cur fl; cbn [notif_loop]; [reflexivity| |].
  - destruct (H b Hi) as [C _]. unfold same_content in C. assert ((match f with FRange a e => Ok (mkPI b (a + 1) e (pi_lenses (if fl then pitem_default else cur))) | FWhole => buf <- unwrap (get bufs' b) "buffer not found" ;; n <- pt_line_count (b_content buf) ;; Ok (mkPI b 1 n (pi_lenses (if fl then pitem_default else cur))) end)
      = (match f with FRange a e => Ok (mkPI b (a + 1) e (pi_lenses (if fl then pitem_default else cur))) | FWhole => buf <- unwrap (get bufs b) "buffer not found" ;; n <- pt_line_count (b_content buf) ;; Ok (mkPI b 1 n (pi_lenses (if fl then pitem_default else cur))) end)) as ->.
    { destruct f; try reflexivity. destruct (get bufs' b), (get bufs b); cbn [option_map] in C; try discriminate; [|reflexivity]. injection C as C. cbn [unwrap bind]. now rewrite C. }
    match goal with |- bind ?m _ = _ => destruct m end; cbn [bind]; auto.
  - destruct (H _ Hi) as [C P]. rewrite (show_lens_ext G _ _ _ _ _ C P). destruct (show_lens G bufs s x); cbn [bind]; auto.
Qed.
Lemma params_ext G v bufs bufs' s s' : view_wf v -> (forall b, shows v b -> same_content bufs bufs' b /\ pick s' b = pick s b) ->
  to_notification_params G v bufs' s' = to_notification_params G v bufs s.
Proof.
  intros W H. unfold to_notification_params. destruct (as_vec v) as [items| |] eqn:E; cbn [bind]; auto. apply (loop_ext G v); auto. now apply as_vec_shown.
Qed.

(** ** client [j] sees the same *)
Definition here (k : core) (j : nat) : Prop := exists a, get (cmap k) j = Some a /\ view_wf (c_view a).
Definition same_look (j : nat) (k k' : core) : Prop := exists a a', get (cmap k) j = Some a /\ get (cmap k') j = Some a' /\ view_wf (c_view a) /\ c_view a' = c_view a /\
  forall b, shows (c_view a) b -> same_content (k_buffers k) (k_buffers k') b /\ csel a' (view_key (c_view a)) b = csel a (view_key (c_view a)) b.
Lemma look_params G j k k' : same_look j k k' -> view_params G k' j = view_params G k j.
Proof.
  intros (a & a' & A & A' & W & V & H). unfold view_params, the_client. rewrite A, A'. cbn [unwrap bind]. rewrite V. apply params_ext; [exact W|]. intros b Hb. destruct (H b Hb) as [C S]. split; [exact C|exact S].
Qed.
Lemma look_trans j a b c : same_look j a b -> same_look j b c -> same_look j a c.
Proof.
  intros (x & y & X & Y & W & V & H) (y' & z & Y' & Z & _ & V' & H'). rewrite Y in Y'. injection Y' as <-. exists x, z. split; [exact X|]. split; [exact Z|]. split; [exact W|]. split; [congruence|]. intros e He.
  destruct (H e He) as [C S]. rewrite V in H'. destruct (H' e He) as [C' S']. split; [unfold same_content in *; congruence|congruence].
Qed.
Lemma look_refl j k : here k j -> same_look j k k.
Proof. intros (a & A & W). exists a, a. split; [exact A|]. split; [exact A|]. split; [exact W|]. split; [reflexivity|]. intros b _. split; reflexivity. Qed.
(** the clients, the contents and the messages are as before *)
Lemma look_same j k k' : here k j -> cmap k' = cmap k -> (forall a b, get (cmap k) j = Some a -> shows (c_view a) b -> same_content (k_buffers k) (k_buffers k') b) -> same_look j k k'.
Proof.
  intros (a & A & W) E H. exists a, a. rewrite E. split; [exact A|]. split; [exact A|]. split; [exact W|]. split; [reflexivity|]. intros b Hb. split; [eapply H; eauto|reflexivity].
Qed.
(** another client may have changed *)
Lemma look_client j k k' a a' : get (cmap k) j = Some a -> view_wf (c_view a) -> get (cmap k') j = Some a' -> c_view a' = c_view a -> k_buffers k' = k_buffers k ->
  (forall b, shows (c_view a) b -> csel a' (view_key (c_view a)) b = csel a (view_key (c_view a)) b) -> same_look j k k'.
Proof. intros A W A' V B H. exists a, a'. rewrite B. split; [exact A|]. split; [exact A'|]. split; [exact W|]. split; [exact V|]. intros b Hb. split; [reflexivity|now apply H]. Qed.

(** either nothing changed for [j], nor was anything shown to it, or its display is current *)
Definition keeps (G : Graphemes) (j : nat) (k k' : core) : Prop :=
  (same_look j k k' /\ shown_to (k_sent k') j = shown_to (k_sent k) j) \/ current G k' j.
Lemma keeps_current G j k k' : keeps G j k k' -> current G k j -> current G k' j.
Proof.
  intros [[L S]|C] (items & I & P); [|exact C]. exists items. unfold last_shown in *. rewrite S. split; [exact I|]. now rewrite (look_params G j k k' L).
Qed.
Lemma keeps_trans G j a b c : keeps G j a b -> keeps G j b c -> keeps G j a c.
Proof.
  intros K1 K2. destruct K1 as [[L1 S1]|C1]; [|right; now apply (keeps_current G j b c)]. destruct K2 as [[L2 S2]|C2]; [|now right].
  left. split; [now apply (look_trans j a b c)|congruence].
Qed.
Lemma shown_app l m j : shown_to (l ++ m) j = shown_to l j ++ shown_to m j.
Proof. apply flat_map_app. Qed.

(** ** the notifications *)
Lemma notify_current G ids k k' j : notify_view_update G ids k = Ok k' -> In j ids -> current G k' j.
Proof.
  intros E H. apply notify_frame in E. destruct E as (ps & P & -> & F). unfold current, last_shown. cbn [emit k_sent].
  assert (exists items, hd_error (rev (shown_to (k_sent k ++ map (fun e => mkSent (Some [fst e]) (NView (snd e))) ps) j)) = Some items /\ view_params G k j = Ok items) as (items & H1 & H2).
  { rewrite <- P in H. clear P. revert H F. induction ps as [|p ps IH] using rev_ind; intros H F; [destruct H|]. apply Forall_app in F. destruct F as [F1 F2]. inversion F2 as [|? ? F3 _]; subst.
    rewrite map_app, app_assoc, shown_app, rev_app_distr. cbn [map shown_to flat_map m_what m_to existsb]. destruct (j =? fst p) eqn:Q; cbn [orb app rev hd_error].
    - apply Nat.eqb_eq in Q. subst j. eauto.
    - apply IH; [|exact F1]. rewrite map_app in H. apply in_app_or in H. destruct H as [H|[H|[]]]; [exact H|]. subst j. now rewrite Nat.eqb_refl in Q. }
  exists items. split; [exact H1|]. exact H2.
Qed.
Lemma notify_other G ids k k' j : notify_view_update G ids k = Ok k' -> ~ In j ids -> shown_to (k_sent k') j = shown_to (k_sent k) j.
Proof.
  intros E H. apply notify_frame in E. destruct E as (ps & P & -> & _). cbn [emit k_sent]. rewrite shown_app. rewrite <- (app_nil_r (shown_to (k_sent k) j)) at 2. f_equal. rewrite <- P in H. clear P.
  induction ps as [|p ps IH]; [reflexivity|]. cbn [map shown_to flat_map m_what m_to existsb]. destruct (j =? fst p) eqn:Q; cbn [orb app]; [apply Nat.eqb_eq in Q; destruct H; left; auto|]. apply IH. intro X. apply H. now right.
Qed.
Lemma notify_keeps G ids k k' j : notify_view_update G ids k = Ok k' -> here k j -> keeps G j k k'.
Proof.
  intros E C. destruct (in_dec Nat.eq_dec j ids) as [H|H]; [right; eapply notify_current; eauto|left]. split; [|eapply notify_other; eauto]. pose proof (notify_same _ _ _ _ E) as (_ & N2 & N3 & _).
  apply look_same; auto; [unfold cmap; now rewrite N2|]. intros a b _ _. unfold same_content. now rewrite N3.
Qed.
Lemma emit_keeps G k l j : here k j -> Forall (fun m => match m_what m with NView _ => False | _ => True end) l -> keeps G j k (emit k l).
Proof.
  intros C F. left. split; [apply look_same; auto; reflexivity|]. cbn [emit k_sent]. rewrite shown_app. rewrite <- (app_nil_r (shown_to (k_sent k) j)) at 2. f_equal.
  induction F as [|m l Hm F IH]; [reflexivity|]. cbn [shown_to flat_map]. destruct (m_what m); [exact IH|exact IH|destruct Hm].
Qed.
Lemma here_clients k k' j : k_clients k' = k_clients k -> here k j -> here k' j.
Proof. unfold here, cmap. now intros ->. Qed.
Lemma quiet_keeps G j k k' : same_look j k k' -> k_sent k' = k_sent k -> keeps G j k k'.
Proof. intros L S. left. now rewrite S. Qed.

(** ** appending *)
Lemma in_with_buffer k n j a : get (cmap k) j = Some a -> shows (c_view a) n -> open k n -> In j (clients_with_buffer k n).
Proof.
  intros A Sh O. unfold clients_with_buffer, buffer_exists. rewrite (proj2 (has_in _ _) O). cbn [negb]. apply in_map_iff. exists (j, a). split; [reflexivity|]. apply filter_In. split; [now apply get_in|]. cbn [snd]. unfold contains_buffer. now apply has_in.
Qed.
Lemma content_other bufs n b x : b <> n -> same_content bufs (set bufs n x) b.
Proof. intro N. unfold same_content. now rewrite get_set_other. Qed.
Lemma append_keeps G n x k k' j : append_to G n x k = Ok k' -> here k j -> keeps G j k k'.
Proof.
  intros E C. pose proof (append_frame _ _ _ _ _ E) as (_ & F2 & _ & b & F4 & _). unfold append_to in E. bnd E. rename v into k1.
  assert (k_clients k1 = k_clients k /\ k_buffers k1 = k_buffers k' /\ k_sent k1 = k_sent k) as (C1 & B1 & S1).
  { pose proof (notify_same _ _ _ _ E) as (_ & _ & N3 & _). rewrite N3. destruct (negb (buffer_exists k n)); [injection E0 as <-; repeat split|]. bnd E0. bnd E0. injection E0 as <-. repeat split. }
  pose proof C as (a & A & W). assert (get (cmap k1) j = Some a) as A1 by (unfold cmap; now rewrite C1).
  destruct (in_dec (list_eq_dec Nat.eq_dec) n (keys (c_view a))) as [Sh|Sh].
  - right. eapply notify_current; [exact E|]. eapply in_with_buffer; eauto. unfold open. rewrite B1, F4. apply in_keys_set. now left.
  - apply keeps_trans with k1; [|eapply notify_keeps; [exact E|now apply (here_clients k)]].
    apply quiet_keeps; [|exact S1]. apply look_same; auto; [unfold cmap; now rewrite C1|]. intros a0 b0 A0 Hb. rewrite A in A0. injection A0 as <-. rewrite B1, F4. apply content_other. intros ->. now apply Sh.
Qed.
Lemma append_here G n x k k' j : append_to G n x k = Ok k' -> here k j -> here k' j.
Proof. intro E. apply append_frame in E. apply here_clients, E. Qed.
Lemma debug_keeps G x k k' j : debug G x k = Ok k' -> here k j -> keeps G j k k'.
Proof. apply append_keeps. Qed.
Lemma message_keeps G c x k k' j : message G c x k = Ok k' -> here k j -> keeps G j k k'.
Proof.
  unfold message. intros E H. bnd E. injection E as <-. eapply keeps_trans; [eapply append_keeps; eauto|]. apply emit_keeps; [eapply append_here; eauto|]. repeat constructor.
Qed.
Lemma error_keeps G c t x k k' j : error G c t x k = Ok k' -> here k j -> keeps G j k k'.
Proof.
  unfold error. intros E H. bnd E. injection E as <-. eapply keeps_trans; [eapply append_keeps; eauto|]. apply emit_keeps; [eapply append_here; eauto|]. repeat constructor.
Qed.

(** ** views *)
Lemma add_view_keeps G v k k' j a : add_view v k = Ok k' -> get (cmap k) j = Some a -> view_wf (c_view a) ->
  (view_key (c_view a) = view_key v -> forall b, shows (c_view a) b -> shows v b -> csel a (view_key v) b <> None) -> keeps G j k k'.
Proof.
  intros E A W H. apply add_view_eq in E. subst k'. apply quiet_keeps; [|reflexivity]. apply (look_client j k _ a (with_view v a)); auto.
  - unfold set_cmap, cmap at 1. cbn [set_clients k_clients sm_map]. rewrite get_map_vals, A. reflexivity.
  - intros b Hb. rewrite with_view_csel. destruct (csel a (view_key (c_view a)) b) eqn:Q; [reflexivity|]. destruct (eqb (view_key (c_view a)) (view_key v)) eqn:Q1; cbn [andb]; [|reflexivity]. apply eqb_ok in Q1.
    destruct (existsb (eqb b) (keys v)) eqn:Q2; [|reflexivity]. apply existsb_exists in Q2. destruct Q2 as (y & Hy & Q2). apply eqb_ok in Q2. subst y. exfalso. apply (H Q1 b Hb Hy). now rewrite <- Q1.
Qed.
Lemma add_view_here v k k' j : add_view v k = Ok k' -> here k j -> here k' j.
Proof.
  intros E (a & A & W). apply add_view_eq in E. subst k'. exists (with_view v a). split; [|exact W]. unfold set_cmap, cmap at 1. cbn [set_clients k_clients sm_map]. now rewrite get_map_vals, A.
Qed.
Lemma set_client_keeps G k id c j : here k j -> j <> id -> keeps G j k (set_cmap k (set (cmap k) id c)).
Proof.
  intros (a & A & W) N. apply quiet_keeps; [|reflexivity]. apply (look_client j k _ a a); auto. unfold set_cmap, cmap at 1. cbn [set_clients k_clients sm_map]. now rewrite get_set_other.
Qed.
Lemma set_client_here k id c j : here k j -> j <> id -> here (set_cmap k (set (cmap k) id c)) j.
Proof. intros (a & A & W) N. exists a. split; [|exact W]. unfold set_cmap, cmap at 1. cbn [set_clients k_clients sm_map]. now rewrite get_set_other. Qed.
Lemma set_views_keeps G k x j : here k j -> keeps G j k (set_views k x).
Proof. intro H. apply quiet_keeps; [|reflexivity]. apply look_same; auto; reflexivity. Qed.
(** looking at a view shows it *)
Lemma view_own G id vid k k' : view_cmd G id vid k = Ok (None, k') -> current G k' id.
Proof.
  unfold view_cmd. intro E. destruct (view_exists k vid).
  - bnd E. bnd E. bnd E. injection E as <-. eapply notify_current; [exact E2|now left].
  - destruct (buffer_exists k vid); [|discriminate]. bnd E. bnd E. injection E as <-. eapply notify_current; [exact E1|now left].
Qed.
Lemma view_keeps G id vid k e k' j : view_cmd G id vid k = Ok (e, k') -> here k j -> j <> id -> keeps G j k k' /\ here k' j.
Proof.
  unfold view_cmd. intros E H N. destruct (view_exists k vid).
  - bnd E. bnd E. bnd E. injection E as _ <-. pose proof (set_client_here k id (mkCl v (c_sels v0)) j H N) as H1. split; [|eapply here_clients; [|exact H1]; apply (notify_same _ _ _ _ E2)].
    eapply keeps_trans; [apply set_client_keeps; [exact H|exact N]|]. eapply notify_keeps; eauto.
  - destruct (buffer_exists k vid).
    + bnd E. bnd E. injection E as _ <-. pose proof (set_client_here k id (mkCl (for_buffer vid) (c_sels v)) j H N) as H1. pose proof (notify_same _ _ _ _ E1) as (_ & N2 & _).
      split; [|eapply here_clients; [exact N2|exact H1]].
      eapply keeps_trans; [apply (set_client_keeps G k id (mkCl (for_buffer vid) (c_sels v))); [exact H|exact N]|]. eapply keeps_trans; [eapply set_views_keeps; exact H1|]. eapply notify_keeps; [exact E1|]. exact H1.
    + injection E as _ <-. split; [|exact H]. apply quiet_keeps; [now apply look_refl|reflexivity].
Qed.
Lemma view_other G id vid k e k' j : view_cmd G id vid k = Ok (e, k') -> j <> id -> get (cmap k') j = get (cmap k) j /\ k_buffers k' = k_buffers k.
Proof.
  unfold view_cmd. intros E N. destruct (view_exists k vid).
  - bnd E. bnd E. bnd E. injection E as _ <-. pose proof (notify_same _ _ _ _ E2) as (_ & N2 & N3 & _). unfold cmap at 1. rewrite N2, N3. split; [|reflexivity]. change (sm_map (k_clients (set_cmap k (set (cmap k) id (mkCl v (c_sels v0)))))) with (set (cmap k) id (mkCl v (c_sels v0))). now apply get_set_other.
  - destruct (buffer_exists k vid); [|injection E as _ <-; auto]. bnd E. bnd E. injection E as _ <-. pose proof (notify_same _ _ _ _ E1) as (_ & N2 & N3 & _). unfold cmap at 1. rewrite N2, N3. split; [|reflexivity]. cbn [set_views k_clients set_cmap set_clients sm_map]. now apply get_set_other.
Qed.
Lemma view_here G id vid k k' : view_cmd G id vid k = Ok (None, k') -> (forall v, get (vmap k) vid = Some v -> view_wf v) -> here k' id.
Proof.
  unfold view_cmd. intros E H. destruct (view_exists k vid).
  - bnd E. bnd E. bnd E. injection E as <-. pose proof (notify_same _ _ _ _ E2) as (_ & N2 & _). destruct (get (vmap k) vid) as [w|]; [|discriminate]. injection E0 as <-. eapply here_clients; [exact N2|]. exists (mkCl w (c_sels v0)). split; [|now apply H]. unfold set_cmap, cmap at 1. cbn [set_clients k_clients sm_map]. apply get_set_same.
  - destruct (buffer_exists k vid); [|discriminate]. bnd E. bnd E. injection E as <-. pose proof (notify_same _ _ _ _ E1) as (_ & N2 & _). eapply here_clients; [exact N2|]. exists (mkCl (for_buffer vid) (c_sels v)). split; [|apply view_wf_for]. cbn [set_views]. unfold set_cmap, cmap at 1. cbn [set_clients k_clients sm_map]. apply get_set_same.
Qed.

(** ** opening *)
Lemma edit_own G pol d id name scratch k k' : edit_cmd G pol d id name scratch k = Ok k' -> current G k' id.
Proof.
  unfold edit_cmd. intro E. bnd E. destruct v as [notify k1]. clear E0. bnd E. rename v into k2. bnd E. destruct v as [e k3]. destruct e; [discriminate|]. bnd E. rename v into k4.
  pose proof (view_own _ _ _ _ _ E1) as C3. assert (here k3 id) as H3.
  { eapply view_here; [exact E1|]. intros v Hv. rewrite (add_view_vmap _ _ _ E0), get_set_same in Hv. injection Hv as <-. apply view_wf_for. }
  pose proof (keeps_current _ _ _ _ (debug_keeps _ _ _ _ _ E2 H3) C3) as C4. pose proof (append_here _ _ _ _ _ _ E2 H3) as H4. destruct notify; [|injection E as <-; exact C4].
  exact (keeps_current _ _ _ _ (notify_keeps _ _ _ _ _ E H4) C4).
Qed.
Lemma edit_keeps G pol d id name scratch k k' j a : edit_cmd G pol d id name scratch k = Ok k' -> j <> id -> get (cmap k) j = Some a -> view_wf (c_view a) -> (shows (c_view a) name -> open k name) ->
  (view_key (c_view a) = view_key (for_buffer name) -> shows (c_view a) name -> csel a (view_key (c_view a)) name <> None) -> keeps G j k k'.
Proof.
  unfold edit_cmd. intros E N A W O Hs. bnd E. destruct v as [notify k1].
  assert (k_clients k1 = k_clients k /\ (buffer_exists k1 name = true) /\ (keeps G j k k1 \/ (notify = true /\ shows (c_view a) name))) as (C1 & O1 & K1).
  { assert (here k j) as H by (exists a; auto). unfold buffer_exists in *. destruct scratch.
    - injection E0 as <- <-. destruct (has (k_buffers k) name) eqn:X.
      + split; [reflexivity|]. split; [exact X|]. left. apply quiet_keeps; [now apply look_refl|reflexivity].
      + split; [reflexivity|]. split; [unfold open_scratch; cbn [set_buffers k_buffers]; apply has_in, in_keys_set; now left|]. left. apply quiet_keeps; [|reflexivity]. apply look_same; auto. intros a0 b A0 Hb. rewrite A in A0. injection A0 as <-. apply content_other. intros ->.
        apply has_not_in in X. apply X. now apply O.
    - destruct (has (k_buffers k) name) eqn:X.
      + bnd E0. bnd E0. destruct v0 as [reloaded b]. bnd E0. injection E0 as <- <-. destruct (get (k_buffers k) name) as [b0|] eqn:Gb; [|discriminate]. injection E1 as <-.
        assert (here (set_buffers k (set (k_buffers k) name b)) j) as H1 by (exists a; auto).
        assert (k_clients v0 = k_clients k /\ has (k_buffers v0) name = true /\ (keeps G j (set_buffers k (set (k_buffers k) name b)) v0)) as (C1 & O1 & K1).
        { destruct reloaded.
          - pose proof (debug_frame _ _ _ _ E3) as (_ & F2 & _ & y & F4 & _). split; [exact F2|]. split; [rewrite F4; apply has_in, in_keys_set; right; apply in_keys_set; now left|]. eapply debug_keeps; eauto.
          - injection E3 as <-. split; [reflexivity|]. split; [cbn [set_buffers k_buffers]; apply has_in, in_keys_set; now left|]. apply quiet_keeps; [now apply look_refl|reflexivity]. }
        split; [exact C1|]. split; [exact O1|]. destruct (in_dec (list_eq_dec Nat.eq_dec) name (keys (c_view a))) as [Sh|Sh].
        * destruct reloaded; [right; split; auto|]. left. eapply keeps_trans; [|exact K1]. apply quiet_keeps; [|reflexivity]. apply look_same; auto. intros a0 b1 A0 Hb. unfold same_content. cbn [set_buffers k_buffers]. rewrite get_set. destruct (eqb b1 name) eqn:Q; [|reflexivity]. apply eqb_ok in Q. subst b1. rewrite Gb.
          unfold load_from_disk in E2. destruct (b_source b0); [discriminate|]. destruct (is_synced d b0); [injection E2 as <-; reflexivity|]. bnd E2. try (bnd E2; discriminate).
        * left. eapply keeps_trans; [|exact K1]. apply quiet_keeps; [|reflexivity]. apply look_same; auto. intros a0 b1 A0 Hb. rewrite A in A0. injection A0 as <-. apply content_other. intros ->. now apply Sh.
      + bnd E0. injection E0 as <- <-. unfold open_file in E1. bnd E1. injection E1 as <-. split; [reflexivity|]. split; [cbn [set_buffers k_buffers]; apply has_in, in_keys_set; now left|]. left. apply quiet_keeps; [|reflexivity]. apply look_same; auto. intros a0 b A0 Hb. rewrite A in A0. injection A0 as <-. apply content_other. intros ->.
        apply has_not_in in X. apply X. now apply O. }
  clear E0. bnd E. rename v into k2. bnd E. destruct v as [e k3]. destruct e; [discriminate|]. bnd E. rename v into k4.
  assert (get (cmap k1) j = Some a) as A1 by (unfold cmap; now rewrite C1).
  assert (get (cmap k2) j = Some (with_view (for_buffer name) a)) as A2 by (rewrite (add_view_cmap _ _ _ E0), get_map_vals, A1; reflexivity).
  assert (here k2 j) as H2 by (eexists; split; [exact A2|exact W]). destruct (view_other _ _ _ _ _ _ j E1 N) as [A3 B3]. rewrite A2 in A3.
  pose proof (debug_frame _ _ _ _ E2) as (_ & F2 & _ & y & F4 & _). assert (get (cmap k4) j = Some (with_view (for_buffer name) a)) as A4 by (unfold cmap; now rewrite F2).
  assert (keeps G j k1 k4) as K2.
  { eapply keeps_trans; [eapply add_view_keeps; eauto|].
    - intros Q b Hb Sb. apply shows_for in Sb. subst b. rewrite <- Q. now apply Hs.
    - destruct (view_keeps _ _ _ _ _ _ _ E1 H2 N) as [K3 H3]. eapply keeps_trans; [exact K3|]. eapply debug_keeps; eauto. }
  assert (here k4 j) as H4 by (eexists; split; [exact A4|exact W]).
  destruct K1 as [K1|[-> Sh]].
  - eapply keeps_trans; [exact K1|]. eapply keeps_trans; [exact K2|]. destruct notify; [eapply notify_keeps; eauto|injection E as <-; apply quiet_keeps; [now apply look_refl|reflexivity]].
  - right. eapply notify_current; [exact E|]. apply filter_In. split; [|apply negb_true_iff, Nat.eqb_neq; exact N]. eapply in_with_buffer; [exact A4|exact Sh|]. unfold open. rewrite F4, B3, (add_view_buffers _ _ _ E0). apply in_keys_set. right. now apply has_in.
Qed.

(** ** deleting a view *)
Lemma drop_keeps G bs : forall k k' j a, drop_buffers G bs k = Ok k' -> get (cmap k) j = Some a -> view_wf (c_view a) -> (forall b, shows (c_view a) b -> shown_by (vmap k) b = true) -> keeps G j k k'.
Proof.
  induction bs as [|n bs IH]; intros k k' j a E A W H; cbn [drop_buffers] in E; [injection E as <-; apply quiet_keeps; [apply look_refl; exists a; auto|reflexivity]|].
  destruct (existsb _ _) eqn:X; [eapply IH; eauto|]. bnd E. rename v into k1. pose proof (debug_frame _ _ _ _ E0) as (_ & F2 & F3 & _). eapply keeps_trans; [|eapply IH; [exact E| |exact W|]].
  - eapply keeps_trans; [|eapply debug_keeps; [exact E0|exists a; auto]]. apply quiet_keeps; [|reflexivity]. apply look_same; auto; [exists a; auto|]. intros a0 b A0 Hb. rewrite A in A0. injection A0 as <-. unfold same_content. cbn [set_buffers k_buffers]. rewrite get_del_other; [reflexivity|]. intros ->. apply H in Hb. unfold shown_by in Hb. congruence.
  - unfold cmap. rewrite F2. exact A.
  - intros b Hb. unfold vmap. rewrite F3. now apply H.
Qed.
Lemma delete_view_fresh G id k k' j a : delete_view G id k = Ok (None, k') -> inv0 k -> get (cmap k) j = Some a ->
  (view_key (c_view a) = id -> current G k' j) /\
  (view_key (c_view a) <> id -> get (vmap k) (view_key (c_view a)) = Some (c_view a) -> keeps G j k k').
Proof.
  intros E I A. destruct (i_cl _ I _ _ A) as [W _]. unfold delete_view in E. destruct (view_exists k id); cbn [negb] in E; [|discriminate]. destruct (sm_remove id (k_views k)) as [ov vs] eqn:Rm. bnd E. rename v into dead. bnd E. rename v into k1.
  set (k2 := set_cmap k1 (map_vals (fun (_ : nat) (c : client) => mkCl (c_view c) (del (c_sels c) id)) (cmap k1))) in *. bnd E. rename v into k3. bnd E. rename v into k4. bnd E. rename v into latest.
  set (k5 := set_cmap k4 (map_vals (fun (_ : nat) c => if eqb (view_key (c_view c)) id then mkCl latest (c_sels c) else c) (cmap k4))) in *. bnd E. injection E as <-. rename v into k6.
  pose proof (debug_frame _ _ _ _ E1) as (_ & F2 & F3 & _). cbn [set_views k_clients k_views] in F2, F3.
  assert (get (cmap k2) j = Some (mkCl (c_view a) (del (c_sels a) id))) as A2. { unfold k2, set_cmap, cmap at 1. cbn [set_clients k_clients sm_map]. rewrite get_map_vals. unfold cmap. rewrite F2. change (sm_map (k_clients k)) with (cmap k). now rewrite A. }
  pose proof (drop_spec _ _ _ _ E2) as (_ & D2 & D3 & _). assert (get (cmap k3) j = Some (mkCl (c_view a) (del (c_sels a) id))) as A3 by (unfold cmap; now rewrite D2).
  assert (exists a4, get (cmap k4) j = Some a4 /\ c_view a4 = c_view a) as (a4 & A4 & V4).
  { destruct (vmap k3); [|injection E3 as <-; eauto]. exists (with_view (for_buffer b_scratch) (mkCl (c_view a) (del (c_sels a) id))). split; [rewrite (add_view_cmap _ _ _ E3), get_map_vals|reflexivity]. destruct (k_buffers k3); [change (cmap (open_scratch b_scratch [] k3)) with (cmap k3)|]; rewrite A3; reflexivity. }
  split.
  - intro Q. eapply notify_current; [exact E5|]. apply in_map_iff. exists (j, a4). split; [reflexivity|]. apply filter_In. split; [now apply get_in|]. cbn [snd]. rewrite V4, Q. apply eqb_refl.
  - intros N Reg. assert (vs = mkSM (remove_first id (sm_stack (k_views k))) (del (vmap k) id)) as Ev. { unfold sm_remove in Rm. destruct (existsb _ _); injection Rm as <- <-; [reflexivity|discriminate]. }
    assert (vmap k2 = del (vmap k) id) as V2. { unfold k2, set_cmap, vmap at 1. cbn [set_clients k_views]. rewrite F3, Ev. reflexivity. }
    assert (get (del (vmap k) id) (view_key (c_view a)) = Some (c_view a)) as Reg' by (rewrite get_del_other; auto).
    assert (k4 = k3) as E34. { assert (vmap k3 = del (vmap k) id) as V3 by (unfold vmap at 1; rewrite D3; exact V2). rewrite V3 in E3. destruct (del (vmap k) id) eqn:Dd; [discriminate|]. now injection E3 as <-. }
    subst k4. rewrite A3 in A4. injection A4 as <-.
    assert (keeps G j k k1) as K1. { eapply keeps_trans; [apply (set_views_keeps G k vs j); exists a; auto|]. eapply debug_keeps; [exact E1|exists a; auto]. }
    assert (keeps G j k1 k2) as K2. { apply quiet_keeps; [|reflexivity]. apply (look_client j k1 k2 a (mkCl (c_view a) (del (c_sels a) id))); auto; [unfold cmap; now rewrite F2|]. intros b _. now apply del_csel. }
    assert (keeps G j k2 k3) as K3. { eapply drop_keeps; [exact E2|exact A2|exact W|]. intros b Hb. rewrite V2. apply shown_by_spec; [apply uniq_del, I|]. exists (view_key (c_view a)), (c_view a). split; [exact Reg'|exact Hb]. }
    assert (get (cmap k5) j = Some (mkCl (c_view a) (del (c_sels a) id))) as A5. { unfold k5, set_cmap, cmap at 1. cbn [set_clients k_clients sm_map]. rewrite get_map_vals, A3. cbn [c_view]. rewrite (proj2 (eqb_neq _ _) N). reflexivity. }
    assert (keeps G j k3 k5) as K5. { apply quiet_keeps; [|reflexivity]. apply (look_client j k3 k5 (mkCl (c_view a) (del (c_sels a) id)) (mkCl (c_view a) (del (c_sels a) id))); auto. }
    eapply keeps_trans; [exact K1|]. eapply keeps_trans; [exact K2|]. eapply keeps_trans; [exact K3|]. eapply keeps_trans; [exact K5|]. eapply notify_keeps; [exact E5|]. eexists. split; [exact A5|exact W].
Qed.

(** ** changing a view *)
Lemma rename_same old new c key b : key <> new -> key <> old -> csel (rename_sels old new c) key b = csel c key b.
Proof. intros. now apply rename_csel. Qed.
Lemma modify_fresh G id f k k' j a w : modify_view G id f k = Ok k' -> inv0 k -> get (cmap k) j = Some a -> get (vmap k) id = Some w -> view_wf (f w) ->
  (view_key (c_view a) = id -> view_key (f w) <> id -> current G k' j) /\
  (get (vmap k) (view_key (c_view a)) = Some (c_view a) -> ~ (view_key (c_view a) <> id /\ view_key (c_view a) = view_key (f w)) -> keeps G j k k').
Proof.
  intros E I A Gw Wf. destruct (i_cl _ I _ _ A) as [W _]. unfold modify_view in E. rewrite Gw in E. cbn [unwrap bind] in E. destruct (i_key _ I _ _ Gw) as [Kw _]. rewrite Kw in E.
  destruct (eqb id (view_key (f w))) eqn:Q.
  - apply eqb_ok in Q. injection E as <-. split; [congruence|]. intros _ _. apply quiet_keeps; [apply look_refl; exists a; auto|reflexivity].
  - apply eqb_neq in Q. bnd E. rename v into k1. bnd E. destruct v as [e k2]. destruct e; [discriminate|]. injection E as <-.
    assert (inv0 k1) as I1. { destruct (view_is_empty (f w)); [injection E0 as <-; exact I|]. eapply add_view_inv0; eauto. apply map_clients_inv0; [exact I|apply rename_uniq|]. intros _ c2. now rewrite rename_view. }
    assert (exists a1, get (cmap k1) j = Some a1 /\ c_view a1 = c_view a) as (a1 & A1 & V1).
    { destruct (view_is_empty (f w)); [injection E0 as <-; eauto|]. exists (with_view (f w) (rename_sels id (view_key (f w)) a)). split; [|cbn [with_view c_view]; apply rename_view].
      rewrite (add_view_cmap _ _ _ E0), get_map_vals. unfold set_cmap, cmap at 1. cbn [set_clients k_clients sm_map]. now rewrite get_map_vals, A. }
    destruct (delete_view_fresh _ _ _ _ _ _ E1 I1 A1) as [D1 D2]. rewrite V1 in D1, D2. split; [auto|]. intros Reg Nu. destruct (list_eq_dec Nat.eq_dec (view_key (c_view a)) id) as [Ek|Ek]; [right; auto|].
    assert (view_key (c_view a) <> view_key (f w)) as Nn by tauto.
    eapply keeps_trans; [|apply D2; [exact Ek|]].
    + destruct (view_is_empty (f w)); [injection E0 as <-; apply quiet_keeps; [apply look_refl; exists a; auto|reflexivity]|].
      set (kr := set_cmap k (map_vals (fun _ : nat => rename_sels id (view_key (f w))) (cmap k))) in *.
      assert (get (cmap kr) j = Some (rename_sels id (view_key (f w)) a)) as Ar by (unfold kr, set_cmap, cmap at 1; cbn [set_clients k_clients sm_map]; now rewrite get_map_vals, A).
      eapply keeps_trans; [|eapply add_view_keeps; [exact E0|exact Ar|rewrite rename_view; exact W|]].
      * apply quiet_keeps; [|reflexivity]. apply (look_client j k kr a _ A W Ar); auto; [apply rename_view|]. intros b _. now apply rename_same.
      * rewrite rename_view. intros X. congruence.
    + destruct (view_is_empty (f w)); [injection E0 as <-; exact Reg|]. rewrite (add_view_vmap _ _ _ E0), get_set_other by exact Nn. exact Reg.
Qed.

(** ** moving and deleting *)
Lemma sels_eqb_eq a : forall b, sels_eqb a b = true -> a = b.
Proof.
  induction a as [|x a IH]; intros [|y b] H; cbn [sels_eqb] in H; try discriminate; [reflexivity|]. apply andb_true_iff in H. destruct H as [H1 H2]. f_equal; [|now apply IH]. unfold sel_eqb in H1. rewrite !andb_true_iff, !Nat.eqb_eq in H1. destruct x, y, H1 as [[? ?] ?]. cbn in *. congruence.
Qed.
Lemma move_keeps G id dir ext k k' j : move_cursor G id dir ext k = Ok k' -> here k j -> keeps G j k k'.
Proof.
  unfold move_cursor. intros E H. bnd E. rename v into c. apply the_client_get in E0. bnd E. rename v into m. bnd E. rename v into m'.
  set (k1 := set_cmap k (set (cmap k) id (mkCl (c_view c) (set (c_sels c) (view_key (c_view c)) m')))) in *. destruct (Nat.eq_dec j id) as [->|N].
  - destruct (forallb _ _) eqn:Q; cbn [negb] in E; [|right; eapply notify_current; [exact E|now left]]. injection E as <-. assert (m' = m) as ->.
    { clear -E2 Q. revert m' E2 Q. induction m as [|[b ss] m IH]; intros m' E Q; cbn [mapM] in E; [injection E as <-; reflexivity|]. bnd E. rename v into e'. bnd E. injection E as <-. cbn [combine forallb] in Q. apply andb_true_iff in Q. destruct Q as [Q1 Q2]. rewrite (IH _ eq_refl Q2). f_equal. bnd E0. bnd E0. injection E0 as <-. cbn [fst snd] in Q1. apply sels_eqb_eq in Q1. now subst. }
    destruct H as (a & A & W). rewrite A in E0. injection E0 as <-. apply quiet_keeps; [|reflexivity]. apply (look_client id k k1 a (mkCl (c_view a) (set (c_sels a) (view_key (c_view a)) m))); auto.
    + unfold k1, set_cmap, cmap at 1. cbn [set_clients k_clients sm_map]. apply get_set_same.
    + intros b _. unfold csel. cbn [c_sels]. rewrite get_set_same. destruct (get (c_sels a) (view_key (c_view a))); [injection E1 as <-; reflexivity|discriminate].
  - pose proof (set_client_here k id (mkCl (c_view c) (set (c_sels c) (view_key (c_view c)) m')) j H N) as H1. fold k1 in H1. pose proof (set_client_keeps G k id (mkCl (c_view c) (set (c_sels c) (view_key (c_view c)) m')) j H N) as K1. fold k1 in K1.
    eapply keeps_trans; [exact K1|]. destruct (negb _); [eapply notify_keeps; eauto|injection E as <-; apply quiet_keeps; [now apply look_refl|reflexivity]].
Qed.
Lemma delete_sels_nothing G pol ss : forall t t', delete_sels G pol ss t = Ok ([], t') -> t' = t.
Proof.
  induction ss as [|s ss IH]; intros t t' E; cbn [delete_sels] in E; [injection E as <-; reflexivity|]. bnd E. destruct v as [b e]. bnd E. bnd E. destruct v0 as [x|]; [|now apply IH]. bnd E. bnd E. destruct v1 as [xs t1]. discriminate.
Qed.
Lemma delete_in_content G pol m : forall bufs xs mods bufs', delete_in_buffers G pol m bufs = Ok (xs, mods, bufs') -> 
  (forall b, ~ In b (keys m) -> same_content bufs bufs' b) /\
  (xs = [] -> mods = [] /\ forall b, (forall x, In b (keys m) -> get bufs b = Some x -> pt_is_empty (b_content x) = false) -> same_content bufs bufs' b).
Proof.
  induction m as [|[n ss] m IH]; intros bufs xs mods bufs' E; cbn [delete_in_buffers] in E; [injection E as <- <- <-; split; [reflexivity|]; intro; split; reflexivity|].
  bnd E. rename v into u. bnd E. destruct v as [ys t]. bnd E. rename v into t1. bnd E. destruct v as [[zs mods1] bufs1]. injection E as <- <- <-. destruct (IH _ _ _ _ E3) as [A B]. destruct (get bufs n) as [u0|] eqn:Gn; [|discriminate]. injection E0 as <-. split.
  - intros b Hb. unfold keys in Hb. cbn [map fst In] in Hb. unfold same_content in *. rewrite A by tauto. rewrite get_set_other; [reflexivity|]. intros ->. tauto.
  - intro X. apply app_eq_nil in X. destruct X as [-> ->]. destruct (B eq_refl) as [-> B']. split; [reflexivity|]. intros b Hb. apply delete_sels_nothing in E1. subst t. destruct (eqb_dec b n) as [->|Nb].
    + assert (pt_is_empty (b_content u0) = false) as Ne by (apply Hb; [now left|exact Gn]). rewrite Ne in E2. injection E2 as <-. unfold same_content. assert (same_content (set bufs n (set_content u0 (b_content u0))) bufs1 n) as S. { apply B'. intros x _. rewrite get_set_same. intro Y. injection Y as <-. exact Ne. }
      unfold same_content in S. rewrite S, get_set_same, Gn. reflexivity.
    + unfold same_content in *. rewrite B'; [now rewrite get_set_other|]. intros x Hx. rewrite get_set_other by exact Nb. apply Hb. now right.
Qed.
Lemma delete_selection_keeps G pol id k xs k' j a c m : delete_selection G pol id k = Ok (xs, k') -> get (cmap k) j = Some a -> view_wf (c_view a) -> get (cmap k) id = Some c -> get (c_sels c) (view_key (c_view c)) = Some m ->
  (forall b x, shows (c_view a) b -> In b (keys m) -> id = j /\ (get (k_buffers k) b = Some x -> pt_is_empty (b_content x) = false)) -> keeps G j k k'.
Proof.
  unfold delete_selection. intros E A W C M H. unfold the_client in E. rewrite C in E. cbn [unwrap bind] in E. rewrite M in E. cbn [unwrap bind] in E. bnd E. destruct v as [[ys mods] bufs]. destruct (delete_in_content _ _ _ _ _ _ _ E0) as [D1 D2]. bnd E. rename v into m'.
  set (k1 := set_cmap (set_buffers k bufs) (set (cmap k) id (mkCl (c_view c) (set (c_sels c) (view_key (c_view c)) m')))) in *. destruct (Nat.eq_dec j id) as [->|N].
  - destruct ys as [|y ys]; [|right; bnd E; injection E as _ <-; eapply notify_current; [exact E2|now left]]. injection E as _ <-. destruct (D2 eq_refl) as [-> D3]. cbn [clamp_buffers] in E1. injection E1 as <-. rewrite A in C. injection C as <-.
    apply quiet_keeps; [|reflexivity]. exists a, (mkCl (c_view a) (set (c_sels a) (view_key (c_view a)) m)). split; [exact A|]. split; [unfold k1, set_cmap, cmap at 1; cbn [set_clients k_clients sm_map]; apply get_set_same|]. split; [exact W|]. split; [reflexivity|]. intros b Hb. split.
    + cbn [k_buffers]. apply D3. intros x Hx Gx. apply (H b x); auto.
    + unfold csel. cbn [c_sels]. now rewrite get_set_same, M.
  - assert (same_look j k k1) as L1. { exists a, a. split; [exact A|]. split; [unfold k1, set_cmap, cmap at 1; cbn [set_clients k_clients sm_map]; now rewrite get_set_other|]. split; [exact W|]. split; [reflexivity|]. intros b Hb. split; [|reflexivity]. apply D1. intro Hm. destruct (H b (new_scratch [] []) Hb Hm). congruence. }
    assert (here k1 j) as H1 by (destruct L1 as (x & y & _ & Y & W1 & V1 & _); exists y; split; [exact Y|now rewrite V1]).
    destruct ys as [|y ys]; [injection E as _ <-; apply quiet_keeps; [exact L1|reflexivity]|]. bnd E. injection E as _ <-. eapply keeps_trans; [apply quiet_keeps; [exact L1|reflexivity]|]. eapply notify_keeps; eauto.
Qed.

(** ** joining and leaving *)
Lemma join_keeps G id k k' j : add_client G id k = Ok k' -> here k j -> j <> id -> keeps G j k k'.
Proof.
  unfold add_client. intros E (a & A & W) N. bnd E. rename v into ctx. clear E0. destruct (insert_ok id ctx (k_clients k)) as [o X]. rewrite X in E. cbn [bind] in E. bnd E. injection E as <-. rename v into k2.
  set (k1 := set_clients k (mkSM (id :: remove_first id (sm_stack (k_clients k))) (set (sm_map (k_clients k)) id ctx))) in *.
  assert (get (cmap k1) j = Some a) as A1 by (unfold k1, cmap; cbn [set_clients k_clients sm_map]; rewrite get_set_other; auto).
  eapply keeps_trans; [apply quiet_keeps; [apply (look_client j k k1 a a); auto|reflexivity]|]. eapply keeps_trans; [eapply debug_keeps; [exact E0|exists a; auto]|]. apply emit_keeps; [eapply append_here; [exact E0|exists a; auto]|repeat constructor].
Qed.
Lemma leave_keeps G id k k' j : remove_client G id k = Ok k' -> here k j -> j <> id -> keeps G j k k'.
Proof.
  unfold remove_client. intros E (a & A & W) N. set (k1 := set_clients k (snd (sm_remove id (k_clients k)))) in *.
  assert (get (cmap k1) j = Some a) as A1. { unfold k1, cmap, sm_remove. cbn [set_clients k_clients]. destruct (existsb _ _); cbn [snd sm_map]; [rewrite get_del_other; auto|exact A]. }
  eapply keeps_trans; [apply quiet_keeps; [apply (look_client j k k1 a a); auto|reflexivity]|]. eapply debug_keeps; [exact E|exists a; auto].
Qed.

(** the order of hash maps does not matter *)
Lemma shuffle_look j k k' : shuffle k k' -> inv k -> connected k j -> same_look j k k'.
Proof.
  intros (S1 & S2 & S3 & S4 & S5 & S6 & m & S7 & S8) [I0 _ _] Cn. apply get_some in Cn. destruct Cn as (a & A).
  pose proof (get_F2 shuffle_client _ _ j S8) as X. rewrite <- (get_perm _ _ j (i_uc _ I0) S7), A in X. destruct (get (cmap k') j) as [a'|] eqn:A'; [|tauto]. destruct X as (V & m0 & P & F). destruct (i_cl _ I0 _ _ A) as (W & U1 & U2).
  exists a, a'. split; [exact A|]. split; [exact A'|]. split; [exact W|]. split; [congruence|]. intros b _. split; [unfold same_content; now rewrite (get_perm _ _ b (i_ub _ I0) S3)|].
  unfold csel. set (key := view_key (c_view a)). assert (match get m0 key, get (c_sels a') key with Some v, Some w => Permutation v w | None, None => True | _, _ => False end) as X by exact (get_F2 (@Permutation _) _ _ key F).
  rewrite <- (get_perm _ _ key U1 P) in X. destruct (get (c_sels a) key) as [x|] eqn:Q, (get (c_sels a') key) as [y|]; try tauto. symmetry. apply get_perm; [eapply U2; eauto|exact X].
Qed.
Lemma shuffle_connected k k' j : shuffle k k' -> connected k' j -> connected k j.
Proof. intros (_ & _ & _ & _ & _ & _ & m & S7 & S8). unfold connected. rewrite (perm_keys _ _ j S7). now rewrite (keys_F2 shuffle_client _ _ S8). Qed.

(** ** C72: a client whose display is current keeps a current display *)
Lemma reg_here k j a v : inv k -> get (cmap k) j = Some a -> looks_at k j v -> here k j /\ c_view a = v.
Proof. intros I A (a' & A' & V). rewrite A in A'. injection A' as <-. split; [|exact V]. exists a. split; [exact A|]. apply (i_cl _ (i_0 _ I) _ _ A). Qed.
Lemma key_open k j v b : inv k -> registered k j -> looks_at k j v -> shows v b -> open k b.
Proof. intros I (v' & (a' & A' & V') & R) (a & A & V) Sh. rewrite A in A'. injection A' as <-. rewrite V in V'. subst v'. exact (i_open _ I _ _ _ R Sh). Qed.
Lemma view_error G id vid k e k' : view_cmd G id vid k = Ok (Some e, k') -> k' = k.
Proof.
  unfold view_cmd. intro E. destruct (view_exists k vid); [bnd E; bnd E; bnd E; discriminate|]. destruct (buffer_exists k vid); [bnd E; bnd E; discriminate|]. now injection E.
Qed.
Lemma call_keeps G pol d c k r k' j v : run_call G pol d c k = Ok (r, k') -> inv k -> registered k j -> looks_at k j v -> c <> CLeave j -> ~ unseen k c j v -> keeps G j k k'.
Proof.
  intros E I Reg L Nl U. pose proof L as (a & A & V). destruct (reg_here _ _ _ _ I A L) as [Hr _]. pose proof Hr as (a0 & A0 & W). rewrite A in A0. injection A0 as <-.
  assert (get (vmap k) (view_key (c_view a)) = Some (c_view a)) as Rg. { destruct Reg as (v' & (a' & A' & V') & R). rewrite A in A'. injection A' as <-. now subst v'. }
  destruct c; cbn [run_call] in E.
  - bnd E. injection E as _ <-. destruct (Nat.eq_dec id j) as [->|N]; [right; eapply edit_own; eauto|]. eapply edit_keeps; [exact E0|congruence|exact A|exact W| |].
    + intro Sh. rewrite V in Sh. eapply key_open; eauto.
    + intros Q Sh X. apply U. cbn [unseen]. rewrite V in *. split; [exact N|]. split; [exact Q|]. split; [exact Sh|]. now rewrite sels_in_csel, A.
  - bnd E. destruct v0 as [e k1]. injection E as _ <-. destruct (Nat.eq_dec id j) as [->|N].
    + destruct e; [apply view_error in E0; subst k1; apply quiet_keeps; [now apply look_refl|reflexivity]|right; eapply view_own; eauto].
    + eapply view_keeps; eauto.
  - bnd E. injection E as _ <-. unfold delete_current_view in E0. bnd E0. rename v1 into c. bnd E0. destruct v1 as [e k1]. destruct e; [discriminate|]. injection E0 as <-. destruct (delete_view_fresh _ _ _ _ _ _ E1 (i_0 _ I) A) as [D1 D2].
    destruct (list_eq_dec Nat.eq_dec (view_key (c_view a)) (view_key (c_view c))) as [Q|Q]; [right; auto|auto].
  - bnd E. destruct v0 as [e k1]. injection E as _ <-. unfold add_to_current_view in E0. destruct (negb _); [injection E0 as _ <-; apply quiet_keeps; [now apply look_refl|reflexivity]|].
    bnd E0. rename v0 into c. bnd E0. injection E0 as _ <-. apply the_client_get in E. assert (looks_at k id (c_view c)) as Lc by (exists c; auto). pose proof (i_listed _ I _ _ Lc) as Ls. apply get_some in Ls. destruct Ls as (w & Gw).
    eapply (modify_fresh _ _ _ _ _ _ a w E1 (i_0 _ I) A Gw); [apply view_wf_add, (i_key _ (i_0 _ I) _ _ Gw)|exact Rg|]. intros [X Y]. apply U. cbn [unseen]. exists (c_view c), w. rewrite V in *. auto.
  - bnd E. destruct v0 as [e k1]. injection E as _ <-. unfold remove_from_current_view in E0. destruct (negb _); [injection E0 as _ <-; apply quiet_keeps; [now apply look_refl|reflexivity]|].
    bnd E0. rename v0 into c. bnd E0. injection E0 as _ <-. apply the_client_get in E. assert (looks_at k id (c_view c)) as Lc by (exists c; auto). pose proof (i_listed _ I _ _ Lc) as Ls. apply get_some in Ls. destruct Ls as (w & Gw).
    destruct (i_key _ (i_0 _ I) _ _ Gw) as [Kw Ww]. refine (proj2 (modify_fresh _ _ _ _ _ _ a w E1 (i_0 _ I) A Gw _) Rg _); cbv beta.
    + destruct (contains_buffer w b); [now apply view_wf_remove|exact Ww].
    + intros [X Y]. destruct (contains_buffer w b); [|congruence]. apply U. cbn [unseen]. exists (c_view c), w. rewrite V in *. auto.
  - bnd E. injection E as _ <-. eapply move_keeps; eauto.
  - bnd E. destruct v0 as [xs k1]. injection E as _ <-. pose proof E0 as E1. unfold delete_selection in E1. bnd E1. rename v0 into c. bnd E1. rename v0 into m. clear E1. apply the_client_get in E. destruct (get (c_sels c) (view_key (c_view c))) as [m0|] eqn:M; [|discriminate]. injection E2 as ->.
    eapply delete_selection_keeps; [exact E0|exact A|exact W|exact E|exact M|]. intros b x Sh Im. apply get_some in Im. destruct Im as (ss & Gm). assert (looks_at k id (c_view c)) as Lc by (exists c; auto).
    assert (sels_in k id (view_key (c_view c)) b <> None) as Sn by (rewrite sels_in_csel, E; unfold csel; rewrite M, Gm; discriminate). rewrite V in Sh.
    destruct (Nat.eq_dec id j) as [Q|Q]; [|exfalso; apply U; cbn [unseen]; exists (c_view c), b; auto]. split; [exact Q|]. intro Gx. destruct (pt_is_empty (b_content x)) eqn:Pe; [|reflexivity]. exfalso. apply U. cbn [unseen]. exists (c_view c), b. split; [exact Lc|]. split; [exact Sn|]. split; [exact Sh|]. right. eauto.
  - bnd E. injection E as _ <-. eapply append_keeps; eauto.
  - bnd E. injection E as _ <-. destruct (Nat.eq_dec id j) as [->|N]; [right; eapply edit_own; eauto|]. assert (~ shows (c_view a) name) as Ns. { intro Sh. apply U. cbn [unseen]. rewrite V in Sh. auto. }
    eapply keeps_trans; [|eapply edit_keeps; [exact E0|congruence|exact A|exact W| |]]; try tauto.
    apply quiet_keeps; [|reflexivity]. apply look_same; auto. intros a0 b A0 Hb. rewrite A in A0. injection A0 as <-. apply content_other. intros ->. tauto.
  - bnd E. injection E as _ <-. eapply message_keeps; eauto.
  - bnd E. injection E as _ <-. eapply error_keeps; eauto.
  - bnd E. injection E as _ <-. eapply debug_keeps; eauto.
  - bnd E. destruct v0. injection E as _ <-. apply quiet_keeps; [now apply look_refl|reflexivity].
  - bnd E. injection E as _ <-. eapply join_keeps; [exact E0|exact Hr|]. intros ->. apply U. reflexivity.
  - bnd E. injection E as _ <-. eapply leave_keeps; [exact E0|exact Hr|]. congruence.
Qed.

(** A client that sees what its view shows, sees what its view shows after any call of any client, but for those listed
    in FreshSpec.v [unseen] (each of which does leave an outdated display in some state: below). *)
Theorem C72_kept_partial : forall G pol d c k r k' j v, reach G pol k -> registered k j -> looks_at k j v -> current G k j ->
  run_call G pol d c k = Ok (r, k') -> c <> CLeave j -> ~ unseen k c j v -> current G k' j.
Proof. intros G pol d c k r k' j v R Reg L Cu E N U. eapply keeps_current; [|exact Cu]. eapply call_keeps; eauto. eapply reach_inv; eauto. Qed.
Print Assumptions C72_kept_partial.
Theorem C72_order : forall G pol k k' j, reach G pol k -> connected k j -> shuffle k k' -> current G k j -> current G k' j.
Proof.
  intros G pol k k' j R Cn Sh Cu. eapply keeps_current; [|exact Cu]. left. split; [eapply shuffle_look; eauto; eapply reach_inv; eauto|]. destruct Sh as (_ & <- & _). reflexivity.
Qed.
Print Assumptions C72_order.

(** the requests that always bring the display of the client up to date *)
Definition refreshes (k : core) (c : call) (r : reply) (j : nat) : Prop :=
  match c with
  | CEdit id _ _ | CScratch id _ _ | CViewDelete id => id = j
  | CView id _ => id = j /\ r = RUnit
  | CViewAdd id b => id = j /\ r = RUnit /\ exists v w, looks_at k j v /\ get (vmap k) (view_key v) = Some w /\ view_key (add_lens (mkLens b FWhole) w) <> view_key v
  | CViewRemove id b => id = j /\ r = RUnit /\ exists v w, looks_at k j v /\ get (vmap k) (view_key v) = Some w /\ shows w b /\ view_key (remove_lens_group b w) <> view_key v
  | CDeleteSelection id => id = j /\ r <> RTexts []
  | CAppend b _ => exists v, looks_at k j v /\ shows v b
  | CDebug _ => exists v, looks_at k j v /\ shows v b_debug
  | CJoin id => exists v, shows v b_debug /\ ((id = j /\ match sm_latest (k_clients k) with Some i => looks_at k i v | None => sm_latest_value (k_views k) = Some v end) \/ (id <> j /\ looks_at k j v))
  | CLeave id => id <> j /\ exists v, looks_at k j v /\ shows v b_debug
  | _ => False
  end.
Lemma append_current G n x k k' j a : append_to G n x k = Ok k' -> get (cmap k) j = Some a -> shows (c_view a) n -> current G k' j.
Proof.
  intros E A Sh. pose proof (append_frame _ _ _ _ _ E) as (_ & F2 & _ & b & F4 & _). unfold append_to in E. bnd E. rename v into k1.
  assert (k_clients k1 = k_clients k /\ k_buffers k1 = k_buffers k') as (C1 & B1).
  { pose proof (notify_same _ _ _ _ E) as (_ & _ & N3 & _). rewrite N3. destruct (negb (buffer_exists k n)); [injection E0 as <-; repeat split|]. bnd E0. bnd E0. injection E0 as <-. repeat split. }
  eapply notify_current; [exact E|]. eapply in_with_buffer; [unfold cmap; rewrite C1; exact A|exact Sh|]. unfold open. rewrite B1, F4. apply in_keys_set. now left.
Qed.
Lemma emit_current G k l j : Forall (fun m => match m_what m with NView _ => False | _ => True end) l -> current G k j -> current G (emit k l) j.
Proof.
  intros F (items & I & P). exists items. split; [|exact P]. unfold last_shown in *. cbn [emit k_sent]. rewrite shown_app.
  assert (shown_to l j = []) as -> by (induction F as [|m l Hm F IH]; [reflexivity|]; cbn [shown_to flat_map]; destruct (m_what m); [exact IH|exact IH|destruct Hm]). now rewrite app_nil_r.
Qed.
Theorem C72_refreshed : forall G pol d c k r k' j, reach G pol k -> run_call G pol d c k = Ok (r, k') -> refreshes k c r j -> current G k' j.
Proof.
  intros G pol d c k r k' j R E H. apply reach_inv in R. destruct c; cbn [run_call refreshes] in *; try contradiction.
  - subst id. bnd E. injection E as _ <-. eapply edit_own; eauto.
  - destruct H as [-> ->]. bnd E. destruct v as [e k1]. destruct e; [discriminate|]. injection E as <-. eapply view_own; eauto.
  - subst id. bnd E. injection E as _ <-. unfold delete_current_view in E0. bnd E0. rename v0 into c. bnd E0. destruct v0 as [e k1]. destruct e; [discriminate|]. injection E0 as <-. apply the_client_get in E. eapply delete_view_fresh; [exact E1|apply R|exact E|reflexivity].
  - destruct H as (-> & -> & v & w & (a & A & V) & Gw & N). bnd E. destruct v0 as [e k1]. destruct e; [discriminate|]. injection E as <-. unfold add_to_current_view in E0. destruct (negb _); [discriminate|]. bnd E0. rename v0 into c. apply the_client_get in E. rewrite A in E. injection E as <-. bnd E0. injection E0 as <-. rewrite V in E.
    eapply (modify_fresh _ _ _ _ _ _ a w E (i_0 _ R) A Gw); [apply view_wf_add, (i_key _ (i_0 _ R) _ _ Gw)|now rewrite V|exact N].
  - destruct H as (-> & -> & v & w & (a & A & V) & Gw & Sh & N). bnd E. destruct v0 as [e k1]. destruct e; [discriminate|]. injection E as <-. unfold remove_from_current_view in E0. destruct (negb _); [discriminate|]. bnd E0. rename v0 into c. apply the_client_get in E. rewrite A in E. injection E as <-. bnd E0. injection E0 as <-. rewrite V in E.
    assert (contains_buffer w b = true) as Cb by (now apply has_in). refine (proj1 (modify_fresh _ _ _ _ _ _ a w E (i_0 _ R) A Gw _) _ _); cbv beta; rewrite ?Cb; [apply view_wf_remove, (i_key _ (i_0 _ R) _ _ Gw)|now rewrite V|exact N].
  - destruct H as [-> N]. bnd E. destruct v as [xs k1]. injection E as <- <-. unfold delete_selection in E0. bnd E0. bnd E0. bnd E0. destruct v1 as [[ys mods] bufs]. bnd E0. destruct ys as [|y ys]; [injection E0 as <- _; congruence|]. bnd E0. injection E0 as _ <-. eapply notify_current; [exact E4|now left].
  - destruct H as (v & (a & A & V) & Sh). bnd E. injection E as _ <-. eapply append_current; eauto. now rewrite V.
  - subst id. bnd E. injection E as _ <-. eapply edit_own; eauto.
  - destruct H as (v & (a & A & V) & Sh). bnd E. injection E as _ <-. eapply append_current; eauto. now rewrite V.
  - destruct H as (v & Sh & H). bnd E. injection E as _ <-. unfold add_client in E0. bnd E0. rename v1 into ctx. destruct (insert_ok id ctx (k_clients k)) as [o X]. rewrite X in E0. cbn [bind] in E0. bnd E0. injection E0 as <-. apply emit_current; [repeat constructor|].
    assert (exists a, get (cmap (set_clients k (mkSM (id :: remove_first id (sm_stack (k_clients k))) (set (sm_map (k_clients k)) id ctx)))) j = Some a /\ c_view a = v) as (a & A & V).
    { unfold cmap at 1. cbn [set_clients k_clients sm_map]. destruct H as [[-> Lt]|[N (a & A & V)]].
      - exists ctx. split; [apply get_set_same|]. destruct (sm_latest (k_clients k)) as [i|].
        + apply the_client_get in E. destruct Lt as (a & A & V). rewrite A in E. injection E as <-. exact V.
        + rewrite Lt in E. cbn [unwrap bind] in E. injection E as <-. reflexivity.
      - exists a. split; [|exact V]. rewrite get_set_other by congruence. exact A. }
    eapply append_current; [exact E1|exact A|now rewrite V].
  - destruct H as (N & v & (a & A & V) & Sh). bnd E. injection E as _ <-. unfold remove_client in E0. eapply append_current; [exact E0| |now rewrite V; exact Sh].
    unfold cmap, sm_remove. cbn [set_clients k_clients]. destruct (existsb _ _); cbn [snd sm_map]; [rewrite get_del_other; auto|exact A].
Qed.
Print Assumptions C72_refreshed.

(** ** an editor with one client: its display is always current *)
Lemma own_keeps G pol d c k r k' j : run_call G pol d c k = Ok (r, k') -> inv k -> connected k j -> by_client j c -> (c = CDeleteSelection j -> no_empty_buffer k) -> keeps G j k k'.
Proof.
  intros E I Cn B Ne. apply get_some in Cn. destruct Cn as (a & A). destruct (i_cl _ (i_0 _ I) _ _ A) as [W _]. assert (here k j) as Hr by (exists a; auto).
  destruct c; cbn [run_call by_client] in *; try contradiction; try subst id.
  - bnd E. injection E as _ <-. right. eapply edit_own; eauto.
  - bnd E. destruct v as [e k1]. injection E as _ <-. destruct e; [apply view_error in E0; subst k1; apply quiet_keeps; [now apply look_refl|reflexivity]|right; eapply view_own; eauto].
  - bnd E. injection E as _ <-. unfold delete_current_view in E0. bnd E0. bnd E0. destruct v1 as [e k1]. destruct e; [discriminate|]. injection E0 as <-. apply the_client_get in E. right. eapply delete_view_fresh; [exact E1|apply I|exact E|reflexivity].
  - bnd E. destruct v as [e k1]. injection E as _ <-. unfold add_to_current_view in E0. destruct (negb _); [injection E0 as _ <-; apply quiet_keeps; [now apply look_refl|reflexivity]|].
    bnd E0. apply the_client_get in E. rewrite A in E. injection E as <-. bnd E0. injection E0 as _ <-. assert (looks_at k j (c_view a)) as Lc by (exists a; auto). pose proof (i_listed _ I _ _ Lc) as Ls. apply get_some in Ls. destruct Ls as (w & Gw).
    destruct (i_key _ (i_0 _ I) _ _ Gw) as [Kw Ww]. destruct (modify_fresh _ _ _ _ _ _ a w E (i_0 _ I) A Gw (view_wf_add _ _ Ww)) as [M _]. destruct (list_eq_dec Nat.eq_dec (view_key (add_lens (mkLens b FWhole) w)) (view_key (c_view a))) as [Q|Q]; [|right; auto].
    unfold modify_view in E. rewrite Gw in E. cbn [unwrap bind] in E. rewrite Kw, Q, eqb_refl in E. injection E as <-. apply quiet_keeps; [now apply look_refl|reflexivity].
  - bnd E. destruct v as [e k1]. injection E as _ <-. unfold remove_from_current_view in E0. destruct (negb _); [injection E0 as _ <-; apply quiet_keeps; [now apply look_refl|reflexivity]|].
    bnd E0. apply the_client_get in E. rewrite A in E. injection E as <-. bnd E0. injection E0 as _ <-. assert (looks_at k j (c_view a)) as Lc by (exists a; auto). pose proof (i_listed _ I _ _ Lc) as Ls. apply get_some in Ls. destruct Ls as (w & Gw).
    destruct (i_key _ (i_0 _ I) _ _ Gw) as [Kw Ww]. set (f := fun v : view => if contains_buffer v b then remove_lens_group b v else v) in *. assert (view_wf (f w)) as Wf by (unfold f; destruct (contains_buffer w b); [now apply view_wf_remove|exact Ww]).
    destruct (modify_fresh _ _ _ _ _ _ a w E (i_0 _ I) A Gw Wf) as [M _]. destruct (list_eq_dec Nat.eq_dec (view_key (f w)) (view_key (c_view a))) as [Q|Q]; [|right; auto].
    unfold modify_view in E. rewrite Gw in E. cbn [unwrap bind] in E. rewrite Kw, Q, eqb_refl in E. injection E as <-. apply quiet_keeps; [now apply look_refl|reflexivity].
  - bnd E. injection E as _ <-. eapply move_keeps; eauto.
  - bnd E. destruct v as [xs k1]. injection E as _ <-. pose proof E0 as E1. unfold delete_selection in E1. bnd E1. rename v into c. bnd E1. rename v into m. clear E1. apply the_client_get in E. destruct (get (c_sels c) (view_key (c_view c))) as [m0|] eqn:M; [|discriminate]. injection E2 as ->.
    eapply delete_selection_keeps; [exact E0|exact A|exact W|exact E|exact M|]. intros b x _ _. split; [reflexivity|]. apply Ne. reflexivity.
  - bnd E. injection E as _ <-. eapply append_keeps; eauto.
  - bnd E. injection E as _ <-. right. eapply edit_own; eauto.
  - bnd E. injection E as _ <-. eapply message_keeps; eauto.
  - bnd E. injection E as _ <-. eapply error_keeps; eauto.
  - bnd E. injection E as _ <-. eapply debug_keeps; eauto.
  - bnd E. destruct v. injection E as _ <-. apply quiet_keeps; [now apply look_refl|reflexivity].
Qed.
Theorem C72_alone : forall G pol j k, alone G pol j k -> reach G pol k /\ connected k j /\ current G k j.
Proof.
  intros G pol j k H. induction H as [d cwd args k0 r k E0 E|d c k r k' H (R & Cn & Cu) B Ne E|k k' H (R & Cn & Cu) Sh].
  - assert (reach G pol k0) as R0 by (eapply reach_init; eauto). split; [eapply reach_call; eauto|].
    assert (k_clients k0 = sm_new /\ exists v, sm_latest_value (k_views k0) = Some v /\ shows v b_debug) as (Nc & v & Lv & Sv).
    { unfold editor_init in E0. bnd E0. bnd E0. pose proof (debug_frame _ _ _ _ E1) as (_ & F2 & F3 & _). pose proof (debug_frame _ _ _ _ E2) as (_ & F5 & F6 & _).
      unfold add_view in E0. destruct (insert_ok (view_key (add_lens (mkLens b_scratch FWhole) (add_lens (mkLens b_debug FWhole) []))) (add_lens (mkLens b_scratch FWhole) (add_lens (mkLens b_debug FWhole) [])) (k_views (open_scratch b_scratch [] v0))) as [o X]. rewrite X in E0. cbn [bind] in E0. injection E0 as <-.
      cbn [set_cmap set_clients set_views k_clients k_views]. unfold cmap. cbn [open_scratch set_buffers set_views k_clients k_views]. rewrite F5, F2. split; [reflexivity|]. exists (add_lens (mkLens b_scratch FWhole) (add_lens (mkLens b_debug FWhole) [])). split; [|vm_compute; auto].
      unfold sm_latest_value. cbn [sm_stack nth_error sm_map]. apply get_set_same. }
    split.
    + cbn [run_call] in E. bnd E. injection E as _ <-. unfold add_client in E1. bnd E1. destruct (insert_ok j v1 (k_clients k0)) as [o X]. rewrite X in E1. cbn [bind] in E1. bnd E1. injection E1 as <-. apply debug_frame in E2. destruct E2 as (_ & F2 & _). unfold connected, cmap. cbn [emit k_clients]. rewrite F2. cbn [set_clients k_clients sm_map]. apply in_keys_set. now left.
    + eapply C72_refreshed; [exact R0|exact E|]. cbn [refreshes]. exists v. split; [exact Sv|]. left. split; [reflexivity|]. rewrite Nc. exact Lv.
  - split; [eapply reach_call; eauto|]. pose proof (reach_inv _ _ _ R) as I. split.
    + destruct (own_keeps _ _ _ _ _ _ _ _ E I Cn B Ne) as [[(x & y & _ & Y & _) _]|(items & _ & P)].
      * unfold connected. eapply get_key_in; eauto.
      * unfold view_params in P. bnd P. apply the_client_get in E0. unfold connected. eapply get_key_in; eauto.
    + eapply keeps_current; [|exact Cu]. eapply own_keeps; eauto.
  - split; [eapply reach_shuffle; eauto|]. split; [|eapply C72_order; eauto]. destruct (shuffle_look j k k' Sh (reach_inv _ _ _ R) Cn) as (x & y & _ & Y & _). unfold connected. eapply get_key_in; eauto.
Qed.
Print Assumptions C72_alone.

(** ** each call listed in [unseen] leaves an outdated display in some state *)
Fixpoint nats_eqb (a b : list (nat * bool)) : bool :=
  match a, b with [], [] => true | (x, p) :: a, (y, q) :: b => (x =? y) && Bool.eqb p q && nats_eqb a b | _, _ => false end.
Definition current_b (k : core) (j : nat) : bool :=
  match last_shown (k_sent k) j, view_params utf8_graphemes k j with
  | Some a, Ok b => if list_eq_dec Nat.eq_dec (map (fun x => length (pi_lenses x)) a) (map (fun x => length (pi_lenses x)) b) then
      forallb (fun p => forallb (fun q => if list_eq_dec Nat.eq_dec (map (@length _) (pl_lines (fst q))) (map (@length _) (pl_lines (snd q))) then nats_eqb (concat (pl_lines (fst q))) (concat (pl_lines (snd q))) else false)
        (combine (pi_lenses (fst p)) (pi_lenses (snd p)))) (combine a b) else false
  | _, _ => false
  end.
Lemma nats_eqb_refl a : nats_eqb a a = true.
Proof. induction a as [|[x p] a IH]; [reflexivity|]. cbn [nats_eqb]. now rewrite Nat.eqb_refl, Bool.eqb_reflx, IH. Qed.
Lemma combine_same {A} (f : A * A -> bool) (l : list A) : (forall x, f (x, x) = true) -> forallb f (combine l l) = true.
Proof. intro H. induction l as [|x l IH]; [reflexivity|]. cbn [combine forallb]. now rewrite H, IH. Qed.
Lemma not_current_b k j : current_b k j = false -> ~ current utf8_graphemes k j.
Proof.
  intros H (items & L & P). unfold current_b in H. rewrite L, P in H. destruct (list_eq_dec _ _ _) as [_|X]; [|congruence]. rewrite combine_same in H; [discriminate|]. intro x. cbn [fst snd]. apply combine_same. intro y. cbn [fst snd]. destruct (list_eq_dec _ _ _) as [_|X]; [|congruence]. apply nats_eqb_refl.
Qed.
Lemma is_current k j items : last_shown (k_sent k) j = Some items -> view_params utf8_graphemes k j = Ok items -> current utf8_graphemes k j.
Proof. intros. exists items. auto. Qed.
Lemma joined_b k id : has (cmap k) id = true -> connected k id.
Proof. apply has_in. Qed.
Definition outdates (c : call) (j : nat) : Prop := exists k r k' v, reach utf8_graphemes pol_wrap k /\ registered k j /\ looks_at k j v /\ current utf8_graphemes k j /\
  run_call utf8_graphemes pol_wrap no_disk c k = Ok (r, k') /\ unseen k c j v /\ connected k' j /\ ~ current utf8_graphemes k' j.
Ltac session_of cs := let E := fresh in
  assert (session cs = Ok (get_ok (core_new []) (session cs))) as E by (apply session_state; vm_compute; reflexivity);
  exists (get_ok (core_new []) (session cs)); eexists; eexists; eexists; split; [apply (session_reach _ _ E)|]; clear E;
  split; [eexists; split; [eexists; split; vm_compute; reflexivity|vm_compute; reflexivity]|];
  split; [eexists; split; vm_compute; reflexivity|];
  split; [eapply is_current; vm_compute; reflexivity|];
  split; [vm_compute; reflexivity|].
(** somebody else deletes the text under its cursor *)
Theorem C72_deleted_refuted : outdates (CDeleteSelection 1) 2.
Proof.
  unfold outdates. session_of [CJoin 1; CScratch 1 (str "a") (str "text" ++ [LF]); CJoin 2; CView 2 (str "a{*}")].
  split; [exists (whole (str "a")), (str "a"); split; [eexists; split; vm_compute; reflexivity|]; split; [vm_compute; discriminate|]; split; [now left|left; discriminate]|]. split; [apply joined_b; vm_compute; reflexivity|]. apply not_current_b. vm_compute. reflexivity.
Qed.
Print Assumptions C72_deleted_refuted.
(** somebody else replaces the contents of the scratch buffer *)
Theorem C72_replaced_refuted : outdates (CScratch 1 (str "a") (str "new")) 2.
Proof.
  unfold outdates. session_of [CJoin 1; CEdit 1 (str "a") true; CJoin 2; CView 2 (str "a{*}")].
  split; [split; [discriminate|now left]|]. split; [apply joined_b; vm_compute; reflexivity|]. apply not_current_b. vm_compute. reflexivity.
Qed.
Print Assumptions C72_replaced_refuted.
(** somebody else opens the buffer it looks at without having a cursor there: it gets a cursor, but is not shown *)
Theorem C72_opened_refuted : outdates (CEdit 2 (str "*scratch*") true) 1.
Proof.
  unfold outdates. session_of [CJoin 1; CView 1 (str "*scratch*"); CJoin 2].
  split; [split; [discriminate|]; split; [vm_compute; reflexivity|]; split; [now left|vm_compute; reflexivity]|]. split; [apply joined_b; vm_compute; reflexivity|]. apply not_current_b. vm_compute. reflexivity.
Qed.
Print Assumptions C72_opened_refuted.
(** somebody else turns its view into the one it looks at *)
Theorem C72_merged_refuted : outdates (CViewAdd 1 (str "c")) 2 /\ outdates (CViewRemove 1 (str "d")) 2.
Proof.
  split; unfold outdates.
  - session_of crash_course. split; [eexists; eexists; split; [eexists; split; vm_compute; reflexivity|]; split; [vm_compute; reflexivity|]; split; [vm_compute; discriminate|vm_compute; reflexivity]|]. split; [apply joined_b; vm_compute; reflexivity|]. apply not_current_b. vm_compute. reflexivity.
  - session_of [CJoin 1; CEdit 1 (str "d") true; CEdit 1 (str "a") true; CAppend (str "a") (str "text" ++ [LF]); CJoin 2; CViewAdd 1 (str "d"); CEdit 2 (str "a") true; CMove 2 MDown false].
    split; [eexists; eexists; split; [eexists; split; vm_compute; reflexivity|]; split; [vm_compute; reflexivity|]; split; [vm_compute; discriminate|vm_compute; reflexivity]|]. split; [apply joined_b; vm_compute; reflexivity|]. apply not_current_b. vm_compute. reflexivity.
Qed.
Print Assumptions C72_merged_refuted.
(** a client that joins while the latest client looks at a file is shown nothing at all *)
Theorem C72_joined_refuted : exists k r k', reach utf8_graphemes pol_wrap k /\ run_call utf8_graphemes pol_wrap no_disk (CJoin 2) k = Ok (r, k') /\
  connected k' 2 /\ shown_to (k_sent k') 2 = [] /\ looks_at k' 2 (whole (str "a")).
Proof.
  assert (session [CJoin 1; CEdit 1 (str "a") true] = Ok (get_ok (core_new []) (session [CJoin 1; CEdit 1 (str "a") true]))) as E by (apply session_state; vm_compute; reflexivity).
  eexists. eexists. eexists. split; [apply (session_reach _ _ E)|]. split; [vm_compute; reflexivity|]. split; [apply joined_b; vm_compute; reflexivity|]. split; [vm_compute; reflexivity|]. eexists; split; vm_compute; reflexivity.
Qed.
Print Assumptions C72_joined_refuted.

(** ** the hypotheses are met *)
Example C72_kept_demo : let k := get_ok (core_new []) (session crash_course) in
  reach utf8_graphemes pol_wrap k /\ registered k 1 /\ looks_at k 1 (whole (str "a")) /\ current utf8_graphemes k 1 /\
  (exists r k', run_call utf8_graphemes pol_wrap no_disk (CAppend (str "a") (str "more" ++ [LF])) k = Ok (r, k') /\ length (shown_to (k_sent k') 1) = S (length (shown_to (k_sent k) 1))) /\
  ~ unseen k (CAppend (str "a") (str "more" ++ [LF])) 1 (whole (str "a")).
Proof.
  cbv zeta. assert (session crash_course = Ok (get_ok (core_new []) (session crash_course))) as E by (apply session_state; vm_compute; reflexivity). split; [apply (session_reach _ _ E)|]. clear E.
  split; [eexists; split; [eexists; split; vm_compute; reflexivity|vm_compute; reflexivity]|]. split; [eexists; split; vm_compute; reflexivity|]. split; [eapply is_current; vm_compute; reflexivity|]. split; [eexists; eexists; split; vm_compute; reflexivity|]. cbn [unseen]. tauto.
Qed.
Lemma careful_is_reach G pol k : tame_reach G pol k -> reach G pol k.
Proof. induction 1; [eapply reach_init; eauto|eapply reach_call; eauto|eapply reach_shuffle; eauto]. Qed.
(** In a session of calls within the limits of C36, every call completes, and no display becomes outdated but for the
    calls in [unseen]. *)
Theorem C72_careful_partial : forall G pol d c k j v, policy_wrap pol \/ policy_succ pol -> tame_reach G pol k -> tame d k c -> looks_at k j v -> current G k j ->
  c <> CLeave j -> ~ unseen k c j v -> exists r k', run_call G pol d c k = Ok (r, k') /\ current G k' j.
Proof.
  intros G pol d c k j v Pf R T L Cu N U. pose proof (tame_safe G pol k Pf R) as S0. destruct (call_safe G pol d c k Pf S0 T) as (r & k' & E & _). exists r, k'. split; [exact E|].
  eapply C72_kept_partial; eauto; [now apply careful_is_reach|]. destruct L as (a & A & V). exists v. split; [exists a; auto|]. subst v. exact (sf_cur _ _ S0 _ _ A).
Qed.
Print Assumptions C72_careful_partial.
(** one client opens a file, moves, deletes, opens another and merges them into one view *)
Definition solo : list call := [CScratch 1 (str "a") (str "text" ++ [LF]); CMove 1 MRight false; CDeleteSelection 1; CEdit 1 (str "b") true; CViewAdd 1 (str "a"); CMessage (Some 1) (str "hi"); CViewRemove 1 (str "b")].
Lemma alone_calls j cs : forall k k', alone utf8_graphemes pol_wrap j k -> Forall (by_client j) cs ->
  run_calls utf8_graphemes pol_wrap no_disk cs k = Ok k' -> (forall n k1, run_calls utf8_graphemes pol_wrap no_disk (firstn n cs) k = Ok k1 -> no_empty_buffer k1) -> alone utf8_graphemes pol_wrap j k'.
Proof.
  induction cs as [|c cs IH]; intros k k' A F E Ne; cbn [run_calls] in E; [injection E as <-; exact A|]. bnd E. destruct v as [r k1]. inversion F as [|? ? F1 F2]; subst. apply (IH k1); auto.
  - eapply alone_call; eauto. intros _. apply (Ne 0). reflexivity.
  - intros n k2 E2. apply (Ne (Datatypes.S n)). cbn [firstn run_calls]. rewrite E0. exact E2.
Qed.
Definition full_b (k : core) : bool := forallb (fun e => negb (pt_is_empty (b_content (snd e)))) (k_buffers k).
Lemma full_buffers k : full_b k = true -> no_empty_buffer k.
Proof. intros H b x Gx. unfold full_b in H. rewrite forallb_forall in H. apply get_in in Gx. specialize (H _ Gx). cbn [snd] in H. now apply negb_true_iff in H. Qed.
Lemma session_join j cs k : session (CJoin j :: cs) = Ok k -> Forall (by_client j) cs ->
  (forall n k1, session (CJoin j :: firstn n cs) = Ok k1 -> no_empty_buffer k1) -> alone utf8_graphemes pol_wrap j k.
Proof.
  unfold session. intros E F Ne. destruct (editor_init utf8_graphemes (str "/w") (str "ced")) as [k0| |] eqn:E0; cbn [bind] in *; try discriminate. cbn [run_calls] in E, Ne. destruct (run_call utf8_graphemes pol_wrap no_disk (CJoin j) k0) as [[r k1]| |] eqn:E1; cbn [bind] in *; try discriminate.
  refine (alone_calls j cs k1 k _ F E Ne). exact (alone_join _ _ _ _ _ _ _ _ _ E0 E1).
Qed.
Fixpoint prefixes_full (k : core) (cs : list call) : bool :=
  full_b k && match cs with [] => true | c :: r => match run_call utf8_graphemes pol_wrap no_disk c k with Ok (_, k') => prefixes_full k' r | _ => true end end.
Lemma prefixes cs : forall k n k1, prefixes_full k cs = true -> run_calls utf8_graphemes pol_wrap no_disk (firstn n cs) k = Ok k1 -> full_b k1 = true.
Proof.
  induction cs as [|c cs IH]; intros k n k1 H E; cbn [prefixes_full] in H; apply andb_true_iff in H; destruct H as [H1 H2].
  - rewrite firstn_nil in E. injection E as <-. exact H1.
  - destruct n as [|n]; cbn [firstn run_calls] in E; [injection E as <-; exact H1|]. bnd E. destruct v as [r k']. exact (IH _ _ _ H2 E).
Qed.
Example C72_alone_demo : exists k, alone utf8_graphemes pol_wrap 1 k /\ session (CJoin 1 :: solo) = Ok k /\ length (shown_to (k_sent k) 1) = 7.
Proof.
  assert (session (CJoin 1 :: solo) = Ok (get_ok (core_new []) (session (CJoin 1 :: solo)))) as E by (apply session_state; vm_compute; reflexivity).
  exists (get_ok (core_new []) (session (CJoin 1 :: solo))). split; [|split; [exact E|vm_compute; reflexivity]].
  refine (session_join 1 solo _ E _ _); [unfold solo; repeat apply Forall_cons; try apply Forall_nil; cbn [by_client]; auto|]. clear E. intros n k1 E1. apply full_buffers.
  unfold session in E1. destruct (editor_init utf8_graphemes (str "/w") (str "ced")) as [k0| |] eqn:E0; cbn [bind] in *; try discriminate. cbn [run_calls] in E1. destruct (run_call utf8_graphemes pol_wrap no_disk (CJoin 1) k0) as [[r k2]| |] eqn:E2; cbn [bind] in *; try discriminate.
  refine (prefixes solo k2 n k1 _ E1). clear n k1 E1.
  assert (match editor_init utf8_graphemes (str "/w") (str "ced") with Ok k0 => match run_call utf8_graphemes pol_wrap no_disk (CJoin 1) k0 with Ok (_, k2) => prefixes_full k2 solo | _ => false end | _ => false end = true) as H by (vm_compute; reflexivity).
  rewrite E0, E2 in H. exact H.
Qed.
