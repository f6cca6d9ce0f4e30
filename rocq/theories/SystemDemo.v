(** A system that meets the hypotheses of C75: a client joins, edits a scratch buffer; a second one joins and sees
    nothing yet. *)
From Coq Require Import String List Arith Lia ZArith Bool.
From Verif Require Import Base ListFacts HistoryFacts PieceTable Coords Utf8 GraphemeInst Diff Selection Maps StackMap Fmt Buffer View Json Proto PropProto Core CoreSpec FreshSpec PropCore Payload Menu MenuFacts PropMenu Editor Conn PropConn EditorDemo Server ServerSpec PropServer ServerDemo System SystemSpec SystemFacts PropSystem.
Import ListNotations.

Inductive sop := SDo (m : smove) | SRead (c : nat) | SCall (c : nat) (o : cop) | SReceive (c : nat).
Definition demo_session : text := str "demo".
Definition yplay1 (o : sop) (x : list smove * system demo_lua) : res (list smove * system demo_lua) :=
  let '(ms, y) := x in let f := sy_peer _ y in
  match o with
  | SDo m => match m with MLine _ _ => Unspec | _ => s <- play1 utf8_graphemes pol_wrap ascii_crate demo_serde demo_lua m (sy_server _ y) ;; Ok (ms ++ [m], mkSys demo_lua s f) end
  | SRead c =>
      let p := f c in
      match nth_error (str_lines (bytes_from (co_sent (pr_conn p)))) (pr_read p) with
      | None => Unspec
      | Some line =>
          s <- play1 utf8_graphemes pol_wrap ascii_crate demo_serde demo_lua (MLine c line) (sy_server _ y) ;;
          Ok (ms ++ [MLine c line], mkSys demo_lua s (put_peer c (mkPeer (pr_conn p) (S (pr_read p)) (pr_got p)) f))
      end
  | SCall c o => let p := f c in match o with OpEvent _ => Unspec | _ => n <- cstep true (pr_conn p) o ;; Ok (ms, mkSys demo_lua (sy_server _ y) (put_peer c (mkPeer n (pr_read p) (pr_got p)) f)) end
  | SReceive c =>
      let p := f c in
      match nth_error (str_lines (sy_out demo_lua demo_session y c)) (pr_got p) with
      | None => Unspec
      | Some line => Ok (ms, mkSys demo_lua (sy_server _ y) (put_peer c (mkPeer (read_by line (pr_conn p)) (pr_read p) (S (pr_got p))) f))
      end
  end.
Notation demo_yreach := (yreach utf8_graphemes pol_wrap ascii_crate demo_serde demo_lua true demo_session).
Lemma yplay1_ok o ms y ms' y' : demo_yreach ms y -> yplay1 o (ms, y) = Ok (ms', y') -> demo_yreach ms' y'.
Proof.
  intros R E. unfold yplay1 in E. destruct o as [m|c|c o|c].
  - assert (exists s, play1 utf8_graphemes pol_wrap ascii_crate demo_serde demo_lua m (sy_server _ y) = Ok s /\ ms' = ms ++ [m] /\ y' = mkSys demo_lua s (sy_peer _ y) /\ forall c l, m <> MLine c l) as (s & P & -> & -> & N)
      by (destruct m; try discriminate; match type of E with bind ?x _ = _ => destruct x as [s| |] eqn:P end; try discriminate; cbn [bind] in E; injection E as <- <-; exists s; repeat split; discriminate).
    eapply yr_step; [exact R|]. apply ys_server; [exact N|]. apply play1_ok; [exact P|discriminate].
  - destruct (nth_error _ _) as [line|] eqn:Q; [|discriminate]. match type of E with bind ?x _ = _ => destruct x as [s| |] eqn:P end; try discriminate. cbn [bind] in E. injection E as <- <-. eapply yr_step; [exact R|]. apply ys_read; [exact Q|]. apply play1_ok; [exact P|discriminate].
  - assert (exists n, cstep true (pr_conn (sy_peer _ y c)) o = Ok n /\ ms' = ms /\ y' = mkSys demo_lua (sy_server _ y) (put_peer c (mkPeer n (pr_read (sy_peer _ y c)) (pr_got (sy_peer _ y c))) (sy_peer _ y)) /\ forall e, o <> OpEvent e) as (n & P & -> & -> & N)
      by (destruct o; try discriminate; match type of E with bind ?x _ = _ => destruct x as [s| |] eqn:P end; try discriminate; cbn [bind] in E; injection E as <- <-; exists s; repeat split; discriminate).
    replace ms with (ms ++ []) by apply app_nil_r. eapply yr_step; [exact R|]. eapply ys_call; [exact N|exact P].
  - destruct (nth_error _ _) as [line|] eqn:Q; [|discriminate]. injection E as <- <-. replace ms with (ms ++ []) by apply app_nil_r. eapply yr_step; [exact R|]. apply ys_receive. exact Q.
Qed.
Lemma yplay_ok ops : forall ms y ms' y', demo_yreach ms y -> foldM (fun x o => yplay1 o x) ops (ms, y) = Ok (ms', y') -> demo_yreach ms' y'.
Proof.
  induction ops as [|o ops IH]; intros ms y ms' y' R E; cbn [foldM] in E; [injection E as <- <-; exact R|]. destruct (yplay1 o (ms, y)) as [[ms1 y1]| |] eqn:P; try discriminate. cbn [bind] in E. eapply IH; [|exact E]. eapply yplay1_ok; eauto.
Qed.
Definition demo_start : res (list smove * system demo_lua) :=
  e <- editor_new utf8_graphemes pol_wrap demo_lua demo_world demo_session (str "/w") (str "ced") 0 (SDone 0) ;; Ok ([], mkSys demo_lua (server_new demo_lua e) (fun _ => peer0)).
Definition demo_system (ops : list sop) : res (list smove * system demo_lua) := x <- demo_start ;; foldM (fun x o => yplay1 o x) ops x.
Lemma demo_system_ok ops ms y : demo_system ops = Ok (ms, y) -> demo_yreach ms y.
Proof.
  unfold demo_system, demo_start. intro E. destruct (editor_new utf8_graphemes pol_wrap demo_lua demo_world demo_session (str "/w") (str "ced") 0 (SDone 0)) as [e| |] eqn:N; try discriminate. cbn [bind] in E. eapply yplay_ok; [|exact E]. eapply yr_start. exact N.
Qed.
Definition demo_ops : list sop :=
  [SDo MAccept; SDo handle_next; SCall 1 (OpEdit (str "notes") true); SRead 1; SDo handle_next; SDo MAccept; SDo handle_next] ++
  repeat (SDo deliver_next) 5 ++ repeat (SReceive 1) 5 ++ [SReceive 2].
Definition demo_dft : list smove * system demo_lua := ([], mkSys demo_lua (server_new demo_lua (mkEd demo_lua [] [] [] (core_new []) 0 [])) (fun _ => peer0)).
Definition demo_end : list smove * system demo_lua := get_ok demo_dft (demo_system demo_ops).
Lemma demo_end_ok : demo_yreach (fst demo_end) (snd demo_end).
Proof.
  assert (demo_system demo_ops = Ok demo_end) as E.
  { unfold demo_end. assert ((match demo_system demo_ops with Ok _ => true | _ => false end) = true) as T by (vm_compute; reflexivity). destruct (demo_system demo_ops); [reflexivity|discriminate..]. }
  destruct demo_end as [ms y]. eapply demo_system_ok. exact E.
Qed.
Definition fits_b (n : enotif) : bool :=
  match n with
  | OCore (NView l) => forallb (fun i => (Z.of_nat (pi_start i) <=? u64_max)%Z && ((Z.of_nat (pi_end i) <=? u64_max)%Z && forallb (fun x => (Z.of_nat (pl_first x) <=? u64_max)%Z) (pi_lenses i))) l
  | OStatus l => forallb (fun s => (i64_min <=? st_index s)%Z && (st_index s <=? u64_max / 2)%Z) l
  | _ => true
  end.
Lemma fits_such n : fits_b n = true -> fits_out n.
Proof.
  destruct n as [[t err|c d|l]|m|l|l]; cbn [fits_b fits_out small_notif]; try (intros _; exact Logic.I); intro H; apply Forall_forall; intros x Hx; rewrite forallb_forall in H; specialize (H _ Hx).
  - apply andb_prop in H. destruct H as [H1 H]. apply andb_prop in H. destruct H as [H2 H]. split; [now apply Z.leb_le|]. split; [now apply Z.leb_le|]. apply Forall_forall. intros y Hy. rewrite forallb_forall in H. apply Z.leb_le. exact (H _ Hy).
  - apply andb_prop in H. destruct H as [H1 H2]. split; now apply Z.leb_le.
Qed.
Lemma fits_all y : forallb (fun x => fits_b (o_what x)) (ed_out demo_lua (sv_editor demo_lua (sy_server demo_lua y))) = true -> fits demo_lua y.
Proof. intro H. apply Forall_forall. intros x Hx. apply fits_such. rewrite forallb_forall in H. exact (H _ Hx). Qed.
Lemma sound_good ms c : forallb (fun m => match m with MDeliver b => negb (b c) | _ => true end) ms = true -> sound ms c.
Proof. intro H. apply Forall_forall. intros m Hm. rewrite forallb_forall in H. specialize (H _ Hm). destruct m; try exact Logic.I. now apply negb_true_iff. Qed.
(** Both have read everything.  The first displays its new buffer and its status line, and has the answer to its request. *)
Example C75_demo : let '(ms, y) := demo_end in demo_yreach ms y /\ fits demo_lua y /\ In 1 (sv_index demo_lua (sy_server demo_lua y)) /\ sound ms 1 /\
  settled demo_lua demo_session y 1 /\ current utf8_graphemes (core_of demo_lua y) 1 /\ sv_done demo_lua (sy_server demo_lua y) = false /\
  displayed (cs_view (screen demo_lua y 1)) = [mkPI (str "notes") 1 1 [mkPL [[(32, true)]] 1]] /\
  cs_status (screen demo_lua y 1) = [mkStatus 1 [mkFrag (str "normal") FDefault]] /\ cs_client (screen demo_lua y 1) = str "1" /\ cs_session (screen demo_lua y 1) = demo_session /\
  map rq_id (made demo_lua y 1) = [IdNum 0] /\ map rp_id (replies demo_lua demo_session y 1) = [IdNum 0] /\
  lines_waiting (sv_events demo_lua (sy_server demo_lua y)) 1 = [] /\ pr_read (sy_peer demo_lua y 1) = 1.
Proof.
  pose proof demo_end_ok as R. rewrite (surjective_pairing demo_end). split; [exact R|]. clear R. split; [apply fits_all; vm_compute; reflexivity|]. split; [vm_compute; left; reflexivity|]. split; [apply sound_good; vm_compute; reflexivity|].
  split; [split; vm_compute; reflexivity|]. split; [eexists; split; vm_compute; reflexivity|]. refine (conj _ (conj _ (conj _ (conj _ (conj _ (conj _ (conj _ (conj _ _)))))))); vm_compute; reflexivity.
Qed.
(** The second looks at the same buffer, has read everything as well, and displays nothing: no view is sent to a client that joins. *)
Theorem C75_refuted : exists ms y items, demo_yreach ms y /\ fits demo_lua y /\ In 2 (sv_index demo_lua (sy_server demo_lua y)) /\ sound ms 2 /\ settled demo_lua demo_session y 2 /\
  view_params utf8_graphemes (core_of demo_lua y) 2 = Ok items /\ items <> [] /\ displayed (cs_view (screen demo_lua y 2)) = [].
Proof.
  exists (fst demo_end), (snd demo_end). eexists. split; [exact demo_end_ok|]. split; [apply fits_all; vm_compute; reflexivity|]. split; [vm_compute; right; left; reflexivity|]. split; [apply sound_good; vm_compute; reflexivity|].
  split; [split; vm_compute; reflexivity|]. split; [vm_compute; reflexivity|]. split; [discriminate|vm_compute; reflexivity].
Qed.
Print Assumptions C75_refuted.
