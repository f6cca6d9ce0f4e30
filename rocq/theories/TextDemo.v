(** A session that meets the hypotheses of C79_text: [ced notes], the keys l and d: the second character of the file is gone. *)
From Coq Require Import String List Arith Lia ZArith Bool.
From Verif Require Import Base ListFacts HistoryFacts PieceTable PieceTableSpec PieceTableFacts Coords Utf8 GraphemeInst Diff Selection Maps StackMap Fmt Buffer View ViewSpec Json Proto PropProto Core CoreSpec CoreOps FreshSpec PropCore Payload Menu MenuFacts PropMenu Editor Conn PropConn EditorDemo Server ServerSpec PropServer ServerDemo System SystemSpec SystemFacts PropSystem SystemDemo Shipped PropShipped PropTyping PropNotifUtf8 Tui TuiSpec TuiFacts PropTui PropTuiMenu PropTuiKeys PropTuiScreen PropTuiFinal Terminal TerminalSpec PropTerminal TerminalDemo SoloSpec PropSolo PropOneUser OneUserDemo FileSpec PropText.
Import ListNotations.

Definition left_text : text := str "oe" ++ [LF] ++ str "two" ++ [LF].
Definition simple_b (x : text) : bool := forallb (fun b => (b =? LF) || ((32 <=? b) && (b <? 127))) x.
Lemma simple_such x : simple_b x = true -> simple_text x.
Proof.
  intro H. apply Forall_forall. intros b Hb. unfold simple_b in H. rewrite forallb_forall in H. specialize (H _ Hb). cbv beta in H. apply orb_prop in H. destruct H as [H|H]; [left; now apply Nat.eqb_eq|right]. apply andb_prop in H. destruct H as [A B]. apply Nat.leb_le in A. apply Nat.ltb_lt in B. lia.
Qed.
Definition text_b (k : core) (b x : text) : bool := match get (k_buffers k) b with Some u => eqb (txt (b_content u)) x | None => false end.
Lemma text_such k b x : text_b k b x = true -> exists u, get (k_buffers k) b = Some u /\ txt (b_content u) = x.
Proof. unfold text_b. destruct (get (k_buffers k) b) as [u|]; [|discriminate]. intro H. apply eqb_ok in H. eauto. Qed.
Definition view_b (k : core) (c : nat) (b : text) : bool :=
  match get (cmap k) c with Some x => match c_view x with [(n, [mkLens m FWhole])] => eqb n b && eqb m b | _ => false end | None => false end.
Lemma view_such k c b : view_b k c b = true -> looks_at k c (whole b).
Proof.
  unfold view_b, looks_at. destruct (get (cmap k) c) as [x|]; [|discriminate]. intro H. exists x. split; [reflexivity|]. destruct (c_view x) as [|[n [|[m [|]] [|]]] [|]]; try discriminate. apply andb_prop in H. destruct H as [A B]. apply eqb_ok in A, B. subst. reflexivity.
Qed.
Example C79_text_met : let '(ms, tms, p) := user_end in demo_preachL ms tms p /\
  text_rows (whole (str "notes")) (fun _ => left_text) = [RTitle (str "notes") (1, 2); RLine (str "oe"); RLine (str "two")] /\
  exists rows status, on_screen 30 6 (t_out (ts_term (pg_tui _ p))) rows status /\ Forall2 (row_is 30) [RTitle (str "notes") (1, 2); RLine (str "oe"); RLine (str "two")] rows.
Proof.
  pose proof user_end_ok as [R Un]. rewrite (surjective_pairing user_end), (surjective_pairing (fst user_end)). split; [exact R|].
  assert (text_rows (whole (str "notes")) (fun _ => left_text) = [RTitle (str "notes") (1, 2); RLine (str "oe"); RLine (str "two")]) as Tr by (vm_compute; reflexivity). split; [exact Tr|].
  assert (forallb typed_b (snd (fst user_end)) = true) as Ty by (vm_compute; reflexivity). destruct (typed_such _ Ty) as [Mk Mr].
  destruct (C79_text utf8_graphemes pol_wrap (or_introl pol_wrap_ok) ascii_crate demo_serde demo_rest demo_rest_ok demo_styles true (str "demo") demo_plain 2 1 demo_sane (30, 6)%Z demo_files (fst (fst user_end)) (snd (fst user_end)) (snd user_end) 0 20 30%Z 6%Z (whole (str "notes")) (fun _ => left_text) R) as (rows & status & A & B).
  - apply view_such. vm_compute. reflexivity.
  - discriminate.
  - intros b [<-|[]]. destruct (text_such (core_of demo_L (pg_sys demo_L (snd user_end))) (str "notes") left_text) as (z & Gz & Tz); [vm_compute; reflexivity|]. exists z. split; [exact Gz|]. split; [exact Tz|]. apply simple_such. vm_compute. reflexivity.
  - constructor; [|constructor]. apply Forall_forall. intros b Hb. cbn [fst] in Hb. assert (forallb (fun b => (32 <=? b) && (b <? 127)) (str "notes") = true) as H by (vm_compute; reflexivity). rewrite forallb_forall in H. specialize (H _ Hb). apply andb_prop in H. destruct H as [X Y]. apply Nat.leb_le in X. apply Nat.ltb_lt in Y. lia.
  - vm_compute. reflexivity.
  - lia.
  - lia.
  - constructor; [|constructor]. apply Z.leb_le. vm_compute. reflexivity.
  - intros k Hk. cbn [length whole] in Hk. assert (k = 0) as -> by lia. cbn. lia.
  - apply fits_L. vm_compute. reflexivity.
  - vm_compute. left. reflexivity.
  - apply sound_good. vm_compute. reflexivity.
  - split; vm_compute; reflexivity.
  - apply Nat.leb_le. vm_compute. reflexivity.
  - exact Un.
  - vm_compute. reflexivity.
  - exact Mk.
  - exact Mr.
  - apply talk_such. vm_compute. reflexivity.
  - exists rows, status. split; [exact A|]. rewrite Tr in B. exact B.
Qed.
Print Assumptions C79_text_met.
