(** A session that meets the hypotheses of C80_last_file: [ced notes], up to the point where the user would type. *)
From Coq Require Import String List Arith Lia ZArith Bool.
From Verif Require Import Base ListFacts HistoryFacts PieceTable Coords Utf8 Utf8Spec GraphemeInst Diff Selection Maps StackMap Fmt Buffer View Json Proto PropProto Core CoreSpec FreshSpec PropCore Payload Menu MenuFacts PropMenu Editor Conn PropConn EditorDemo Server ServerSpec PropServer ServerDemo System SystemSpec SystemFacts PropSystem SystemDemo Shipped PropShipped PropTyping Tui TuiSpec TuiFacts PropTui PropTuiMenu PropTuiKeys PropTuiScreen PropTuiFinal Terminal TerminalSpec PropTerminal TerminalDemo SoloSpec PropSolo PropOneUser OneUserDemo FileSpec PropFile PropCedFile.
Import ListNotations.

Definition notes : text := str "one
two
".
Definition demo_in : editor demo_L -> Prop := started_in utf8_graphemes pol_wrap demo_rest (str "demo") (str "/w").
Definition file_end : list smove * list tmove * demo_prog_L := get_ok user_dft (pdemo_L user_pops).
Lemma file_end_is : pdemo_L user_pops = Ok file_end.
Proof. unfold file_end. assert ((match pdemo_L user_pops with Ok _ => true | _ => false end) = true) as T by (vm_compute; reflexivity). destruct (pdemo_L user_pops); [reflexivity|discriminate..]. Qed.
Lemma user_files w b : In (PSys (SDo (MEvent w b))) user_pops -> w = file_world.
Proof. intro H. apply (all_files w b). unfold all_pops. apply in_or_app. now left. Qed.
Lemma notes_readable : readable 2 (str "/w") (str "notes") notes (w_disk file_world).
Proof. split; [exact file_undisturbed|reflexivity]. Qed.
Lemma file_end_ok : preachN demo_in (fst (fst file_end)) (snd (fst file_end)) (snd file_end) /\ forall w b, In (MEvent w b) (fst (fst file_end)) -> readable 2 (str "/w") (str "notes") notes (w_disk w).
Proof.
  pose proof file_end_is as E. destruct file_end as [[ms tms] p]. cbn [fst snd]. split.
  - eapply pdemo_new_L; [|exact E]. intros e N. exists demo_world, (str "ced"), (mkLS None []), (str "?.lua"). exact N.
  - intros w b H. rewrite (user_files w b (pdemo_world _ _ _ _ _ _ E H)). exact notes_readable.
Qed.
Lemma silent_such tms : forallb (fun m => match m with MvKey _ | MvReadError _ => false | _ => true end) tms = true -> (forall k, ~ In (MvKey k) tms) /\ forall x, ~ In (MvReadError x) tms.
Proof. intro H. rewrite forallb_forall in H. split; intros x Hx; discriminate (H _ Hx). Qed.
Lemma stays_such ms : forallb (fun m => match m with MEnd _ => false | _ => true end) ms = true -> forall d, ~ In (MEnd d) ms.
Proof. intros H d Hd. rewrite forallb_forall in H. discriminate (H _ Hd). Qed.
(** [ced notes] in a terminal of 30 columns and 6 rows: the two lines of the file are on the screen. *)
Example C80_demo : let '(ms, tms, p) := file_end in preachN demo_in ms tms p /\ at_rest demo_L (str "demo") 1 p /\ shows_file 30 6 (t_out (ts_term (pg_tui _ p))) (str "demo") (str "notes") [str "one"; str "two"].
Proof.
  pose proof file_end_ok as [R Un]. rewrite (surjective_pairing file_end), (surjective_pairing (fst file_end)). split; [exact R|].
  assert (at_rest demo_L (str "demo") 1 (snd file_end)) as Re. { split; [vm_compute; reflexivity|]. split; [vm_compute; reflexivity|]. split; [split; vm_compute; reflexivity|vm_compute; reflexivity]. }
  split; [exact Re|]. assert (forallb (fun m => match m with MvKey _ | MvReadError _ => false | _ => true end) (snd (fst file_end)) = true) as Ty by (vm_compute; reflexivity). destruct (silent_such _ Ty) as [Mk Mr].
  refine (C80_last_file utf8_graphemes pol_wrap ascii_crate demo_serde demo_rest demo_rest_ok demo_styles true (str "demo") demo_plain 2 (str "/w") (str "notes") notes _ _ demo_sane (30, 6)%Z [] (fst (fst file_end)) (snd (fst file_end)) (snd file_end) 30%Z 6%Z R _ _ _ _ _ _ _ _ _ _ _ Un Mk Mr _ Re).
  - discriminate.
  - discriminate.
  - apply valid_ascii. vm_compute. reflexivity.
  - apply printable_b. vm_compute. reflexivity.
  - apply Forall_forall. intros x Hx. left. apply printable_b. destruct Hx as [<-|[<-|[]]]; vm_compute; reflexivity.
  - apply printable_b. vm_compute. reflexivity.
  - vm_compute. reflexivity.
  - lia.
  - vm_compute. split; [intro X; discriminate X|reflexivity].
  - vm_compute. reflexivity.
  - apply Nat.leb_le. vm_compute. reflexivity.
  - apply stays_such. vm_compute. reflexivity.
  - apply sound_good. vm_compute. reflexivity.
  - apply fits_L. vm_compute. reflexivity.
Qed.
Print Assumptions C80_demo.
