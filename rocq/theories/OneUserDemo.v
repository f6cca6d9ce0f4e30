(** A session that meets the hypotheses of C79_one_user: [ced notes], the file is shown, a key is typed, everything is handled. *)
From Coq Require Import String List Arith Lia ZArith Bool.
From Verif Require Import Base ListFacts HistoryFacts PieceTable Coords Utf8 GraphemeInst Diff Selection Maps StackMap Fmt Buffer View Json Proto PropProto Core CoreSpec FreshSpec PropCore Payload Menu MenuFacts PropMenu Editor Conn PropConn EditorDemo Server ServerSpec PropServer ServerDemo System SystemSpec SystemFacts PropSystem SystemDemo Shipped PropShipped PropTyping Tui TuiSpec TuiFacts PropTui PropTuiMenu PropTuiKeys PropTuiScreen PropTuiFinal Terminal TerminalSpec PropTerminal TerminalDemo SoloSpec PropSolo PropOneUser.
Import ListNotations.

Definition yplay1_L (o : sop) (x : list smove * system demo_L) : res (list smove * system demo_L) :=
  let '(ms, y) := x in let f := sy_peer _ y in
  match o with
  | SDo m => match m with MLine _ _ => Unspec | _ => s <- play1 utf8_graphemes pol_wrap ascii_crate demo_serde demo_L m (sy_server _ y) ;; Ok (ms ++ [m], mkSys demo_L s f) end
  | SRead c =>
      let p := f c in
      match nth_error (str_lines (bytes_from (co_sent (pr_conn p)))) (pr_read p) with
      | None => Unspec
      | Some line =>
          s <- play1 utf8_graphemes pol_wrap ascii_crate demo_serde demo_L (MLine c line) (sy_server _ y) ;;
          Ok (ms ++ [MLine c line], mkSys demo_L s (put_peer c (mkPeer (pr_conn p) (S (pr_read p)) (pr_got p)) f))
      end
  | SCall c o => let p := f c in match o with OpEvent _ => Unspec | _ => n <- cstep true (pr_conn p) o ;; Ok (ms, mkSys demo_L (sy_server _ y) (put_peer c (mkPeer n (pr_read p) (pr_got p)) f)) end
  | SReceive c =>
      let p := f c in
      match nth_error (str_lines (sy_out demo_L (str "demo") y c)) (pr_got p) with
      | None => Unspec
      | Some line => Ok (ms, mkSys demo_L (sy_server _ y) (put_peer c (mkPeer (read_by line (pr_conn p)) (pr_read p) (S (pr_got p))) f))
      end
  end.
Definition demo_prog_L := program demo_L.
Definition pplay1_L (o : pop) (x : list smove * list tmove * demo_prog_L) : res (list smove * list tmove * demo_prog_L) :=
  let '(ms, tms, p) := x in
  match o with
  | PSys o =>
      match o with
      | SDo _ | SRead _ => r <- yplay1_L o ([], pg_sys _ p) ;; Ok (ms ++ fst r, tms, mkProg demo_L (snd r) (pg_tui _ p))
      | _ => Unspec
      end
  | PKey k => s <- demo_tstep (MvKey k) (pg_tui _ p) ;; Ok (ms, tms ++ [MvKey k], mkProg demo_L (pg_sys _ p) s)
  | PHandle => s <- demo_tstep MvHandle (pg_tui _ p) ;; Ok (ms, tms ++ [MvHandle], mkProg demo_L (put_conn demo_L 1 (t_conn (ts_term s)) (pr_got (sy_peer _ (pg_sys _ p) 1)) (pg_sys _ p)) s)
  | PReceive =>
      match nth_error (str_lines (sy_out demo_L (str "demo") (pg_sys _ p) 1)) (pr_got (sy_peer _ (pg_sys _ p) 1)) with
      | None => Unspec
      | Some line =>
          let m := match parse_event line with Some e => MvMessage e | None => MvConnError [] end in
          s <- demo_tstep m (pg_tui _ p) ;; Ok (ms, tms ++ [m], mkProg demo_L (put_conn demo_L 1 (t_conn (ts_term s)) (S (pr_got (sy_peer _ (pg_sys _ p) 1))) (pg_sys _ p)) s)
      end
  end.
Definition demo_new_L : editor demo_L -> Prop := started_plain utf8_graphemes pol_wrap demo_rest (str "demo").
Notation demo_pstepL := (pstep utf8_graphemes pol_wrap ascii_crate demo_serde demo_L demo_styles true (str "demo") 1).
Notation preachN new := (preach utf8_graphemes pol_wrap ascii_crate demo_serde demo_L demo_styles true (str "demo") 1 (30, 6)%Z demo_files new).
Notation demo_preachL := (preachN demo_new_L).
Lemma yplay1_step_L o y ms y' : (match o with SDo _ | SRead _ => True | _ => False end) -> yplay1_L o ([], y) = Ok (ms, y') ->
  ystep utf8_graphemes pol_wrap ascii_crate demo_serde demo_L true (str "demo") y ms y' /\
  pr_conn (sy_peer _ y' 1) = pr_conn (sy_peer _ y 1) /\ pr_got (sy_peer _ y' 1) = pr_got (sy_peer _ y 1).
Proof.
  intros N E. unfold yplay1_L in E. destruct o as [m|c|c o|c]; try contradiction.
  - assert (exists s, play1 utf8_graphemes pol_wrap ascii_crate demo_serde demo_L m (sy_server _ y) = Ok s /\ ms = [m] /\ y' = mkSys demo_L s (sy_peer _ y) /\ forall c l, m <> MLine c l) as (s & P & -> & -> & N1)
      by (destruct m; try discriminate; match type of E with bind ?x _ = _ => destruct x as [s| |] eqn:P end; try discriminate; cbn [bind] in E; injection E as <- <-; exists s; repeat split; discriminate).
    split; [|split; reflexivity]. apply ys_server; [exact N1|]. apply play1_ok; [exact P|discriminate].
  - destruct (nth_error _ _) as [line|] eqn:Q; [|discriminate]. match type of E with bind ?x _ = _ => destruct x as [s| |] eqn:P end; try discriminate. cbn [bind] in E. injection E as <- <-. split; [apply ys_read; [exact Q|apply play1_ok; [exact P|discriminate]]|].
    cbn [sy_peer]. unfold put_peer. destruct (Nat.eqb_spec 1 c) as [<-|]; split; reflexivity.
Qed.
Lemma pplay1_step_L (new : editor demo_L -> Prop) o ms tms p ms' tms' p' : preachN new ms tms p -> pplay1_L o (ms, tms, p) = Ok (ms', tms', p') -> preachN new ms' tms' p'.
Proof.
  intros R E. unfold pplay1_L in E. destruct o as [o|k| |].
  - assert (exists r, yplay1_L o ([], pg_sys _ p) = Ok r /\ (match o with SDo _ | SRead _ => True | _ => False end) /\ ms' = ms ++ fst r /\ tms' = tms ++ [] /\ p' = mkProg demo_L (snd r) (pg_tui _ p)) as ([l y] & P & No & -> & -> & ->)
      by (destruct o; try discriminate; match type of E with bind ?x _ = _ => destruct x as [r| |] eqn:P end; try discriminate; cbn [bind] in E; injection E as <- <- <-; exists r; rewrite app_nil_r; repeat split).
    cbn [fst snd]. destruct (yplay1_step_L _ _ _ _ No P) as (A & B & C). eapply pr_step; [exact R|]. now apply ps_system.
  - match type of E with bind ?x _ = _ => destruct x as [s| |] eqn:P end; try discriminate. cbn [bind] in E. injection E as <- <- <-. rewrite <- (app_nil_r ms). eapply pr_step; [exact R|]. apply ps_input; [exact Logic.I|exact P].
  - match type of E with bind ?x _ = _ => destruct x as [s| |] eqn:P end; try discriminate. cbn [bind] in E. injection E as <- <- <-. rewrite <- (app_nil_r ms). eapply pr_step; [exact R|]. apply ps_handle. exact P.
  - destruct (nth_error _ _) as [line|] eqn:Q; [|discriminate]. match type of E with bind ?x _ = _ => destruct x as [s| |] eqn:P end; try discriminate. cbn [bind] in E. injection E as <- <- <-. rewrite <- (app_nil_r ms). eapply pr_step; [exact R|]. eapply ps_receive; [exact Q| |exact P]. destruct (parse_event line); eauto.
Qed.
Lemma pplay_ok_L (new : editor demo_L -> Prop) ops : forall ms tms p ms' tms' p', preachN new ms tms p -> foldM (fun x o => pplay1_L o x) ops (ms, tms, p) = Ok (ms', tms', p') -> preachN new ms' tms' p'.
Proof.
  induction ops as [|o ops IH]; intros ms tms p ms' tms' p' R E; cbn [foldM] in E; [injection E as <- <- <-; exact R|]. destruct (pplay1_L o (ms, tms, p)) as [[[ms1 tms1] p1]| |] eqn:P; try discriminate. cbn [bind] in E. eapply IH; [|exact E]. eapply pplay1_step_L; eauto.
Qed.
Definition pdemo_L (ops : list pop) : res (list smove * list tmove * demo_prog_L) :=
  e <- editor_new utf8_graphemes pol_wrap demo_L demo_world (str "demo") (str "/w") (str "ced") (mkLS None []) (prelude (str "?.lua")) ;;
  t <- term_new true (30, 6)%Z demo_files ;;
  foldM (fun x o => pplay1_L o x) ops ([], [], mkProg demo_L (mkSys demo_L (server_new demo_L e) (put_peer 1 (mkPeer (t_conn t) 0 0) (fun _ => peer0))) (mkTS t [])).
Lemma pdemo_new_L (new : editor demo_L -> Prop) ops ms tms p :
  (forall e, editor_new utf8_graphemes pol_wrap demo_L demo_world (str "demo") (str "/w") (str "ced") (mkLS None []) (prelude (str "?.lua")) = Ok e -> new e) -> pdemo_L ops = Ok (ms, tms, p) -> preachN new ms tms p.
Proof.
  unfold pdemo_L. intros Nw E. destruct (editor_new utf8_graphemes pol_wrap demo_L demo_world (str "demo") (str "/w") (str "ced") (mkLS None []) (prelude (str "?.lua"))) as [e| |] eqn:N; try discriminate. cbn [bind] in E.
  destruct (term_new true (30, 6)%Z demo_files) as [t| |] eqn:T; try discriminate. cbn [bind] in E. eapply pplay_ok_L; [|exact E]. apply pr_start; [|exact T]. apply Nw. reflexivity.
Qed.
Lemma pdemo_ok_L ops ms tms p : pdemo_L ops = Ok (ms, tms, p) -> demo_preachL ms tms p.
Proof. apply pdemo_new_L. intros e N. exists demo_world, (str "/w"), (str "ced"), (mkLS None []), (str "?.lua"). exact N. Qed.
Definition letter (x : string) : tkey := mkTK false false false (TcChar (str x)).
Definition one_exchange (n m : nat) : list pop :=
  [PHandle; PSys (SRead 1); PSys (SDo file_next)] ++ repeat (PSys (SDo deliver_next)) n ++ repeat PReceive m ++ repeat PHandle n.
Definition user_pops : list pop :=
  [PSys (SDo MAccept); PSys (SDo file_next); PSys (SRead 1); PSys (SDo file_next)] ++ repeat (PSys (SDo deliver_next)) 4 ++ repeat PReceive 5 ++ repeat PHandle 4.
Definition all_pops : list pop := user_pops ++ [PKey (letter "l")] ++ one_exchange 2 3 ++ [PKey (letter "d")] ++ one_exchange 2 3.
Lemma demo_plain : plain_session (str "demo").
Proof. repeat (apply Forall_cons; [repeat split; discriminate|]). constructor. Qed.
(** the worlds of the events are those of the moves *)
Lemma pplay1_world o ms tms p ms' tms' p' w b : pplay1_L o (ms, tms, p) = Ok (ms', tms', p') -> In (MEvent w b) ms' -> In (MEvent w b) ms \/ o = PSys (SDo (MEvent w b)).
Proof.
  intros E H. destruct o as [o|k| |]; cbn [pplay1_L] in E.
  - destruct o as [m|c|c o|c]; try discriminate.
    + match type of E with bind ?x _ = _ => destruct x as [[l y]| |] eqn:Q end; try discriminate. cbn [bind fst] in E. injection E as <- <- <-. apply in_app_or in H. destruct H as [H|H]; [now left|]. right. unfold yplay1_L in Q.
      assert (l = [m]) as -> by (destruct m; try discriminate; match type of Q with bind ?x _ = _ => destruct x as [s| |] end; try discriminate; cbn [bind] in Q; injection Q as <- _; reflexivity). destruct H as [->|[]]. reflexivity.
    + match type of E with bind ?x _ = _ => destruct x as [[l y]| |] eqn:Q end; try discriminate. cbn [bind fst] in E. injection E as <- <- <-. apply in_app_or in H. destruct H as [H|H]; [now left|]. exfalso. unfold yplay1_L in Q. destruct (nth_error _ _) as [line|]; [|discriminate]. match type of Q with bind ?x _ = _ => destruct x as [s| |] end; try discriminate. cbn [bind] in Q. injection Q as <- _. destruct H as [H|[]]. discriminate.
  - match type of E with bind ?x _ = _ => destruct x end; try discriminate. cbn [bind] in E. injection E as <- <- <-. now left.
  - match type of E with bind ?x _ = _ => destruct x end; try discriminate. cbn [bind] in E. injection E as <- <- <-. now left.
  - destruct (nth_error _ _) as [line|]; [|discriminate]. match type of E with bind ?x _ = _ => destruct x end; try discriminate. cbn [bind] in E. injection E as <- <- <-. now left.
Qed.
Lemma pplay_world ops w b : forall ms tms p ms' tms' p', foldM (fun x o => pplay1_L o x) ops (ms, tms, p) = Ok (ms', tms', p') -> In (MEvent w b) ms' -> In (MEvent w b) ms \/ In (PSys (SDo (MEvent w b))) ops.
Proof.
  induction ops as [|o ops IH]; intros ms tms p ms' tms' p' E H; cbn [foldM] in E; [injection E as <- <- <-; now left|]. destruct (pplay1_L o (ms, tms, p)) as [[[ms1 tms1] p1]| |] eqn:P; try discriminate. cbn [bind] in E. destruct (IH _ _ _ _ _ _ E H) as [X|X]; [|right; now right].
  destruct (pplay1_world _ _ _ _ _ _ _ _ _ P X) as [Y| ->]; [now left|right; now left].
Qed.
Lemma pdemo_world ops ms tms p w b : pdemo_L ops = Ok (ms, tms, p) -> In (MEvent w b) ms -> In (PSys (SDo (MEvent w b))) ops.
Proof.
  unfold pdemo_L. intros E H. destruct (editor_new _ _ _ _ _ _ _ _ _) as [e| |]; try discriminate. cbn [bind] in E. destruct (term_new _ _ _) as [t| |]; try discriminate. cbn [bind] in E. destruct (pplay_world _ _ _ _ _ _ _ _ _ E H) as [[]|X]. exact X.
Qed.
Lemma file_undisturbed : undisturbed 2 (w_disk file_world).
Proof. split; [apply Nat.le_refl|]. intros p _. exists 1. split; [reflexivity|lia]. Qed.
Lemma all_files w b : In (PSys (SDo (MEvent w b))) all_pops -> w = file_world.
Proof.
  intro H. unfold all_pops, user_pops, one_exchange, file_next, deliver_next in H. cbn [repeat app] in H. repeat (destruct H as [H|H]; [try discriminate H; injection H as <- _; reflexivity|]). destruct H.
Qed.
Lemma fits_L y : forallb (fun x => fits_b (o_what x)) (ed_out demo_L (sv_editor demo_L (sy_server demo_L y))) = true -> SystemSpec.fits demo_L y.
Proof. intro H. unfold SystemSpec.fits. apply Forall_forall. intros x Hx. rewrite forallb_forall in H. apply fits_such. exact (H x Hx). Qed.
Definition typed_b (m : tmove) : bool :=
  match m with MvKey k => match tk_code k with TcChar c => one_char c && (negb (chord k true "d") && negb (chord k true "e")) | _ => false end | MvReadError _ => false | _ => true end.
Lemma typed_such tms : forallb typed_b tms = true -> (forall k, In (MvKey k) tms -> no_script_key k) /\ forall x, ~ In (MvReadError x) tms.
Proof.
  intro H. rewrite forallb_forall in H. split; [|intros x Hx; discriminate (H _ Hx)]. intros k Hk. specialize (H _ Hk). cbn [typed_b] in H. unfold no_script_key, one_code. destruct (tk_code k); try discriminate. apply andb_prop in H. destruct H as [A H]. apply andb_prop in H. destruct H as [B C]. apply negb_true_iff in B, C. auto.
Qed.
Definition user_dft : list smove * list tmove * demo_prog_L :=
  ([], [], mkProg demo_L (mkSys demo_L (server_new demo_L (mkEd demo_L [] [] [] (core_new []) (mkLS None []) [])) (fun _ => peer0)) (mkTS (mkTerm conn0 false (0, 0)%Z []) [])).
Definition user_end : list smove * list tmove * demo_prog_L := get_ok user_dft (pdemo_L all_pops).
Lemma user_end_is : pdemo_L all_pops = Ok user_end.
Proof. unfold user_end. assert ((match pdemo_L all_pops with Ok _ => true | _ => false end) = true) as T by (vm_compute; reflexivity). destruct (pdemo_L all_pops); [reflexivity|discriminate..]. Qed.
Lemma user_end_ok : demo_preachL (fst (fst user_end)) (snd (fst user_end)) (snd user_end) /\ forall w b, In (MEvent w b) (fst (fst user_end)) -> undisturbed 2 (w_disk w).
Proof.
  pose proof user_end_is as E. destruct user_end as [[ms tms] p]. cbn [fst snd]. split; [eapply pdemo_ok_L; exact E|]. intros w b H. rewrite (all_files w b (pdemo_world _ _ _ _ _ _ E H)). exact file_undisturbed.
Qed.
Definition user_items : list pitem := [mkPI (str "notes") 1 2 [mkPL [[(111, false); (101, true); (32, false)]; [(116, false); (119, false); (111, false); (32, false)]] 1]].
(** [ced notes], then the keys l and d: the second character of the file is gone, and the screen shows it. *)
Example C79_user_demo : let '(ms, tms, p) := user_end in demo_preachL ms tms p /\ view_params utf8_graphemes (core_of demo_L (pg_sys _ p)) 1 = Ok user_items /\
  exists rows status n, on_screen 30 6 (t_out (ts_term (pg_tui _ p))) rows status /\ Forall2 (shows_row 30) (shown_rows user_items) rows /\ visible status = repeat 32 n ++ str "d" ++ [194; 183] ++ str "N" ++ [194; 183] ++ str "[1@demo]".
Proof.
  pose proof user_end_ok as [R Un]. rewrite (surjective_pairing user_end), (surjective_pairing (fst user_end)). split; [exact R|]. assert (view_params utf8_graphemes (core_of demo_L (pg_sys _ (snd user_end))) 1 = Ok user_items) as V by (vm_compute; reflexivity). split; [exact V|].
  assert (forallb typed_b (snd (fst user_end)) = true) as Ty by (vm_compute; reflexivity). destruct (typed_such _ Ty) as [Mk Mr].
  destruct (C79_one_user utf8_graphemes pol_wrap (or_introl pol_wrap_ok) ascii_crate demo_serde demo_rest demo_rest_ok demo_styles true (str "demo") demo_plain 2 1 demo_sane (30, 6)%Z demo_files (fst (fst user_end)) (snd (fst user_end)) (snd user_end) 0 20 30%Z 6%Z user_items R) as (rows & status & n & A & B & C).
  - apply fits_L. vm_compute. reflexivity.
  - vm_compute. left. reflexivity.
  - apply sound_good. vm_compute. reflexivity.
  - split; vm_compute; reflexivity.
  - apply Nat.leb_le. vm_compute. reflexivity.
  - exact Un.
  - vm_compute. reflexivity.
  - exact Mk.
  - exact Mr.
  - apply talk_such. vm_compute. reflexivity.
  - vm_compute. reflexivity.
  - lia.
  - lia.
  - exact V.
  - discriminate.
  - apply item_such. vm_compute. reflexivity.
  - apply few_rows. vm_compute. reflexivity.
  - exists rows, status, n. split; [exact A|]. split; [exact B|]. rewrite C. vm_compute. reflexivity.
Qed.
Print Assumptions C79_user_demo.
