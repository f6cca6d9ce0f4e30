(** A terminal that meets the hypotheses of C79: it connects, asks for its file, a key is pressed, everything is handled. *)
From Coq Require Import String List Arith Lia ZArith Bool.
From Verif Require Import Base ListFacts HistoryFacts PieceTable Coords Utf8 GraphemeInst Diff Selection Maps StackMap Fmt Buffer View Json Proto PropProto Core CoreSpec FreshSpec PropCore Payload Menu MenuFacts PropMenu Editor Conn PropConn EditorDemo Server ServerSpec PropServer ServerDemo System SystemSpec SystemFacts PropSystem SystemDemo Tui TuiSpec TuiFacts PropTui PropTuiMenu PropTuiKeys PropTuiScreen PropTuiFinal Terminal TerminalSpec PropTerminal.
Import ListNotations.

Inductive pop := PSys (o : sop) | PKey (k : tkey) | PHandle | PReceive.
Notation demo_tstep := (tstep demo_styles true).
Definition demo_prog := program demo_lua.
Definition pplay1 (o : pop) (x : list smove * list tmove * demo_prog) : res (list smove * list tmove * demo_prog) :=
  let '(ms, tms, p) := x in
  match o with
  | PSys o =>
      match o with
      | SDo _ | SRead _ => r <- yplay1 o ([], pg_sys _ p) ;; Ok (ms ++ fst r, tms, mkProg demo_lua (snd r) (pg_tui _ p))
      | _ => Unspec
      end
  | PKey k => s <- demo_tstep (MvKey k) (pg_tui _ p) ;; Ok (ms, tms ++ [MvKey k], mkProg demo_lua (pg_sys _ p) s)
  | PHandle => s <- demo_tstep MvHandle (pg_tui _ p) ;; Ok (ms, tms ++ [MvHandle], mkProg demo_lua (put_conn demo_lua 1 (t_conn (ts_term s)) (pr_got (sy_peer _ (pg_sys _ p) 1)) (pg_sys _ p)) s)
  | PReceive =>
      match nth_error (str_lines (sy_out demo_lua demo_session (pg_sys _ p) 1)) (pr_got (sy_peer _ (pg_sys _ p) 1)) with
      | None => Unspec
      | Some line =>
          let m := match parse_event line with Some e => MvMessage e | None => MvConnError [] end in
          s <- demo_tstep m (pg_tui _ p) ;; Ok (ms, tms ++ [m], mkProg demo_lua (put_conn demo_lua 1 (t_conn (ts_term s)) (S (pr_got (sy_peer _ (pg_sys _ p) 1))) (pg_sys _ p)) s)
      end
  end.
Definition demo_new (e : editor demo_lua) : Prop := started utf8_graphemes pol_wrap demo_lua demo_session e.
Definition demo_files : list text := [str "notes"].
Notation demo_pstep := (pstep utf8_graphemes pol_wrap ascii_crate demo_serde demo_lua demo_styles true demo_session 1).
Notation demo_preach := (preach utf8_graphemes pol_wrap ascii_crate demo_serde demo_lua demo_styles true demo_session 1 (30, 6)%Z demo_files demo_new).
Lemma yplay1_step o y ms y' : (match o with SDo _ | SRead _ => True | _ => False end) -> yplay1 o ([], y) = Ok (ms, y') ->
  ystep utf8_graphemes pol_wrap ascii_crate demo_serde demo_lua true demo_session y ms y' /\
  pr_conn (sy_peer _ y' 1) = pr_conn (sy_peer _ y 1) /\ pr_got (sy_peer _ y' 1) = pr_got (sy_peer _ y 1).
Proof.
  intros N E. unfold yplay1 in E. destruct o as [m|c|c o|c]; try contradiction.
  - assert (exists s, play1 utf8_graphemes pol_wrap ascii_crate demo_serde demo_lua m (sy_server _ y) = Ok s /\ ms = [m] /\ y' = mkSys demo_lua s (sy_peer _ y) /\ forall c l, m <> MLine c l) as (s & P & -> & -> & N1)
      by (destruct m; try discriminate; match type of E with bind ?x _ = _ => destruct x as [s| |] eqn:P end; try discriminate; cbn [bind] in E; injection E as <- <-; exists s; repeat split; discriminate).
    split; [|split; reflexivity]. apply ys_server; [exact N1|]. apply play1_ok; [exact P|discriminate].
  - destruct (nth_error _ _) as [line|] eqn:Q; [|discriminate]. match type of E with bind ?x _ = _ => destruct x as [s| |] eqn:P end; try discriminate. cbn [bind] in E. injection E as <- <-. split; [apply ys_read; [exact Q|apply play1_ok; [exact P|discriminate]]|].
    cbn [sy_peer]. unfold put_peer. destruct (Nat.eqb_spec 1 c) as [<-|]; split; reflexivity.
Qed.
Lemma pplay1_step o ms tms p ms' tms' p' : demo_preach ms tms p -> pplay1 o (ms, tms, p) = Ok (ms', tms', p') -> demo_preach ms' tms' p'.
Proof.
  intros R E. unfold pplay1 in E. destruct o as [o|k| |].
  - assert (exists r, yplay1 o ([], pg_sys _ p) = Ok r /\ (match o with SDo _ | SRead _ => True | _ => False end) /\ ms' = ms ++ fst r /\ tms' = tms ++ [] /\ p' = mkProg demo_lua (snd r) (pg_tui _ p)) as ([l y] & P & No & -> & -> & ->)
      by (destruct o; try discriminate; match type of E with bind ?x _ = _ => destruct x as [r| |] eqn:P end; try discriminate; cbn [bind] in E; injection E as <- <- <-; exists r; rewrite app_nil_r; repeat split).
    cbn [fst snd]. destruct (yplay1_step _ _ _ _ No P) as (A & B & C). eapply pr_step; [exact R|]. now apply ps_system.
  - match type of E with bind ?x _ = _ => destruct x as [s| |] eqn:P end; try discriminate. cbn [bind] in E. injection E as <- <- <-. rewrite <- (app_nil_r ms). eapply pr_step; [exact R|]. apply ps_input; [exact Logic.I|exact P].
  - match type of E with bind ?x _ = _ => destruct x as [s| |] eqn:P end; try discriminate. cbn [bind] in E. injection E as <- <- <-. rewrite <- (app_nil_r ms). eapply pr_step; [exact R|]. apply ps_handle. exact P.
  - destruct (nth_error _ _) as [line|] eqn:Q; [|discriminate]. match type of E with bind ?x _ = _ => destruct x as [s| |] eqn:P end; try discriminate. cbn [bind] in E. injection E as <- <- <-. rewrite <- (app_nil_r ms). eapply pr_step; [exact R|]. eapply ps_receive; [exact Q| |exact P]. destruct (parse_event line); eauto.
Qed.
Lemma pplay_ok ops : forall ms tms p ms' tms' p', demo_preach ms tms p -> foldM (fun x o => pplay1 o x) ops (ms, tms, p) = Ok (ms', tms', p') -> demo_preach ms' tms' p'.
Proof.
  induction ops as [|o ops IH]; intros ms tms p ms' tms' p' R E; cbn [foldM] in E; [injection E as <- <- <-; exact R|]. destruct (pplay1 o (ms, tms, p)) as [[[ms1 tms1] p1]| |] eqn:P; try discriminate. cbn [bind] in E. eapply IH; [|exact E]. eapply pplay1_step; eauto.
Qed.
Definition pdemo (ops : list pop) : res (list smove * list tmove * demo_prog) :=
  e <- editor_new utf8_graphemes pol_wrap demo_lua demo_world demo_session (str "/w") (str "ced") 0 (SDone 0) ;;
  t <- term_new true (30, 6)%Z demo_files ;;
  foldM (fun x o => pplay1 o x) ops ([], [], mkProg demo_lua (mkSys demo_lua (server_new demo_lua e) (put_peer 1 (mkPeer (t_conn t) 0 0) (fun _ => peer0))) (mkTS t [])).
Lemma pdemo_ok ops ms tms p : pdemo ops = Ok (ms, tms, p) -> demo_preach ms tms p.
Proof.
  unfold pdemo. intro E. destruct (editor_new utf8_graphemes pol_wrap demo_lua demo_world demo_session (str "/w") (str "ced") 0 (SDone 0)) as [e| |] eqn:N; try discriminate. cbn [bind] in E.
  destruct (term_new true (30, 6)%Z demo_files) as [t| |] eqn:T; try discriminate. cbn [bind] in E. eapply pplay_ok; [|exact E]. apply pr_start; [|exact T]. exists demo_world, (str "/w"), (str "ced"), 0, (SDone 0). exact N.
Qed.
Definition demo_disk : disk := mkDisk (fun _ => Some (str "one
two
")) (fun _ => Some 1) 2.
Definition file_world : world := {| w_disk := demo_disk; w_walk := fun _ => [] |}.
Definition file_next : smove := MEvent file_world all_good.
Definition demo_pops : list pop :=
  [PSys (SDo MAccept); PSys (SDo file_next); PSys (SRead 1); PSys (SDo file_next)] ++ repeat (PSys (SDo deliver_next)) 4 ++ repeat PReceive 5 ++ repeat PHandle 4.
Definition demo_pdft : list smove * list tmove * demo_prog :=
  ([], [], mkProg demo_lua (snd demo_dft) (mkTS (mkTerm conn0 false (0, 0)%Z []) [])).
Definition demo_pend : list smove * list tmove * demo_prog := get_ok demo_pdft (pdemo demo_pops).
Lemma demo_pend_ok : demo_preach (fst (fst demo_pend)) (snd (fst demo_pend)) (snd demo_pend).
Proof.
  assert (pdemo demo_pops = Ok demo_pend) as E.
  { unfold demo_pend. assert ((match pdemo demo_pops with Ok _ => true | _ => false end) = true) as T by (vm_compute; reflexivity). destruct (pdemo demo_pops); [reflexivity|discriminate..]. }
  destruct demo_pend as [[ms tms] p]. eapply pdemo_ok. exact E.
Qed.
Definition printable_t (t : text) : bool := forallb (fun b => (32 <=? b) && (b <? 127)) t.
Definition talk_b (a b c : nat) (x : nat * written) : bool :=
  match x with
  | (d, WNotif n) => negb (d =? c) || match n with
      | OMenu _ | OHint _ => false
      | OStatus l => forallb (fun i => printable_t (plain_text (st_text i))) l && (length (joined [194; 183] (map (fun i => plain_text (st_text i)) l)) <=? b)
      | OCore (NEcho t _) => printable_t t && (length t <=? a)
      | OCore _ => true
      end
  | _ => true
  end.
Lemma talk_such a b log c : forallb (talk_b a b c) log = true -> modest_talk a b log c.
Proof.
  intros H n Hn. rewrite forallb_forall in H. specialize (H _ Hn). unfold talk_b in H. rewrite Nat.eqb_refl in H. cbn [negb orb] in H.
  destruct n as [[t err|x y|l]|m|l|l]; try discriminate; try exact Logic.I; apply andb_prop in H; destruct H as [A B]; apply Nat.leb_le in B; split; try exact B.
  - now apply printable_b.
  - apply Forall_forall. intros i Hi. rewrite forallb_forall in A. apply printable_b. exact (A _ Hi).
Qed.
Definition item_b (w : Z) (i : pitem) : bool :=
  printable_t (pi_buffer i) && (forallb (fun l => forallb (fun x => printable_t (map fst x)) (pl_lines l)) (pi_lenses i) &&
  ((6 + Z.of_nat (length (pi_buffer i) + length (dec (pi_start i)) + length (dec (pi_end i))) <=? w)%Z && (w <? 65536)%Z)).
Lemma item_such w l : forallb (item_b w) l = true -> Forall (fits_item w) l.
Proof.
  intro H. apply Forall_forall. intros i Hi. rewrite forallb_forall in H. specialize (H _ Hi). unfold item_b in H. apply andb_prop in H. destruct H as [A H]. apply andb_prop in H. destruct H as [B H]. apply andb_prop in H. destruct H as [C D].
  split; [now apply printable_b|]. split; [|split; [now apply Z.leb_le|now apply Z.ltb_lt]]. apply Forall_forall. intros x Hx. apply Forall_forall. intros y Hy. rewrite forallb_forall in B. specialize (B _ Hx). rewrite forallb_forall in B. left. apply printable_b. exact (B _ Hy).
Qed.
Lemma no_keys tms : forallb (fun m => match m with MvKey _ => false | _ => true end) tms = true -> forall k, In (MvKey k) tms -> one_code k.
Proof. intros H k Hk. rewrite forallb_forall in H. discriminate (H _ Hk). Qed.
Lemma few_rows items h : forallb (fun k => negb (Z.of_nat (length (shown_rows (firstn k items))) =? h - 1)%Z) (seq 0 (length items)) = true ->
  forall k, k < length items -> (Z.of_nat (length (shown_rows (firstn k items))) <> h - 1)%Z.
Proof. intros H k Hk. rewrite forallb_forall in H. specialize (H k ltac:(apply in_seq; lia)). apply negb_true_iff in H. now apply Z.eqb_neq. Qed.
Definition demo_items : list pitem := [mkPI (str "notes") 1 2 [mkPL [[(111, true); (110, false); (101, false); (32, false)]; [(116, false); (119, false); (111, false); (32, false)]] 1]].
(** [ced notes], on a terminal of 30 columns and 6 rows: the hypotheses of C79_screen hold, so the file is on the screen. *)
Example C79_demo : let '(ms, tms, p) := demo_pend in demo_preach ms tms p /\ view_params utf8_graphemes (core_of demo_lua (pg_sys _ p)) 1 = Ok demo_items /\
  exists rows status n, on_screen 30 6 (t_out (ts_term (pg_tui _ p))) rows status /\ Forall2 (shows_row 30) (shown_rows demo_items) rows /\ visible status = repeat 32 n ++ str "normal".
Proof.
  pose proof demo_pend_ok as R. rewrite (surjective_pairing demo_pend), (surjective_pairing (fst demo_pend)). split; [exact R|]. assert (view_params utf8_graphemes (core_of demo_lua (pg_sys _ (snd demo_pend))) 1 = Ok demo_items) as V by (vm_compute; reflexivity). split; [exact V|].
  destruct (C79_screen utf8_graphemes pol_wrap ascii_crate demo_serde demo_lua demo_styles true demo_session 1 demo_sane (30, 6)%Z demo_files demo_new (fst (fst demo_pend)) (snd (fst demo_pend)) (snd demo_pend) 0 6 30%Z 6%Z demo_items (fun e H => H) R) as (rows & status & n & A & B & C).
  - apply fits_all. vm_compute. reflexivity.
  - vm_compute. left. reflexivity.
  - apply sound_good. vm_compute. reflexivity.
  - split; vm_compute; reflexivity.
  - exists demo_items. split; vm_compute; reflexivity.
  - vm_compute. reflexivity.
  - apply no_keys. vm_compute. reflexivity.
  - apply talk_such. vm_compute. reflexivity.
  - vm_compute. reflexivity.
  - lia.
  - lia.
  - exact V.
  - discriminate.
  - apply item_such. vm_compute. reflexivity.
  - apply few_rows. vm_compute. reflexivity.
  - exists rows, status, n. split; [exact A|]. split; [exact B|]. rewrite C. vm_compute. reflexivity.
Qed.
Print Assumptions C79_demo.
