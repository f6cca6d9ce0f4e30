(** C87: the terminal is given back as it was. *)
From Coq Require Import String List Arith ZArith Bool Lia.
From Verif Require Import Base Maps PieceTable Fmt Proto Payload Conn Tui Tty.
Import ListNotations.

Section C87.
Variable mode : Type.
Variable raw : mode -> mode.
Notation tty := (tty mode).
Notation term_main := (term_main mode raw).
(** the shell's terminal: its main screen, with a cursor *)
Definition at_shell (y : tty) : Prop := y_alt _ y = false /\ y_hidden _ y = false.
(** [y'] is [y], with these messages below what was there *)
Definition given_back (y : tty) (messages : list text) (y' : tty) : Prop :=
  at_shell y' /\ y_mode _ y' = y_mode _ y /\ y_main _ y' = y_main _ y ++ map Said messages.
(** the terminal lets itself be given back *)
Definition cooperates (f : fate) : Prop := fa_unraw f = None /\ fa_leave f = None.
(** it came to the point where the user sees something *)
Definition reaches_screen (f : fate) : Prop := fa_new f = None /\ fa_raw f = None /\ fa_prepare f = None.

Lemma draws_other (ds : list put_on) : forall y : tty, y_alt _ y = true ->
  let y' := fold_left (fun y x => write _ x y) ds y in y_alt _ y' = true /\ y_hidden _ y' = y_hidden _ y /\ y_mode _ y' = y_mode _ y /\ y_main _ y' = y_main _ y.
Proof.
  induction ds as [|x ds IH]; intros y A; [auto|]. cbn [fold_left]. destruct (IH (write _ x y)) as (B & C & D & E); [unfold write; now rewrite A|]. cbn zeta in *. rewrite C, D, E. unfold write in *. rewrite A in *. auto.
Qed.
Lemma draws_cmds (ds : list tcmd) (y : tty) : fold_left (fun y c => write _ (Drawn c) y) ds y = fold_left (fun y x => write _ x y) (map Drawn ds) y.
Proof. revert y. induction ds as [|d ds IH]; intro y; [reflexivity|]. cbn [fold_left map]. apply IH. Qed.
(** What was said before the other screen was there stays; nothing else does. *)
Definition early (f : fate) : list text :=
  match fa_new f, fa_raw f, fa_prepare f with
  | Some why, _, _ => [why]
  | None, Some e, _ => [enabled ++ e]
  | None, None, Some (0, e) => [prepared ++ e]
  | _, _, _ => []
  end.
(** However the client ends, but for a signal, the terminal is as it was: its mode (whatever it was), the screen the shell wrote
    on, its contents, the cursor. *)
Theorem C87_given_back_partial : forall f y, at_shell y -> cooperates f -> (reaches_screen f -> fa_stop f <> Signal) ->
  given_back y (early f) (fst (term_main f y)).
Proof.
  intros [[w|] [e|] [[n e']|] ds st u l] [m alt hid main other] [A H] [U L] S; cbn [fa_new fa_raw fa_prepare fa_drawn fa_stop fa_unraw fa_leave Tty.y_alt Tty.y_hidden] in *; subst alt hid u l;
    try (split; [split; reflexivity|split; reflexivity]).
  - split; [split; reflexivity|]. split; [reflexivity|]. destruct n as [|[|n]]; cbn; rewrite ?firstn_nil; cbn; now rewrite ?app_nil_r.
  - specialize (S (conj eq_refl (conj eq_refl eq_refl))). unfold Tty.term_main. cbn [fa_new fa_raw fa_prepare fa_drawn fa_stop execute fold_left obey set_mode Tty.y_mode Tty.y_alt Tty.y_hidden Tty.y_main Tty.y_other].
    rewrite draws_cmds. match goal with |- context[fold_left _ (map Drawn ds) ?y0] => destruct (draws_other (map Drawn ds) y0 eq_refl) as (B & C & D & E); set (y1 := fold_left _ (map Drawn ds) y0) in * end.
    cbn [Tty.y_hidden Tty.y_mode Tty.y_main] in C, D, E. clearbody y1. destruct y1 as [m1 a1 h1 main1 o1]. cbn [Tty.y_mode Tty.y_alt Tty.y_hidden Tty.y_main] in B, C, D, E. subst.
    destruct st as [|why|]; [| |congruence]; (split; [split; reflexivity|split; [reflexivity|cbn; now rewrite app_nil_r]]).
Qed.
(** It returns without an error exactly if nothing failed. *)
Theorem C87_endings : forall f y, cooperates f ->
  match snd (term_main f y) with
  | Returned => reaches_screen f /\ fa_stop f = Ends
  | Panicked why => (reaches_screen f -> fa_stop f = Panics why)
  | Aborted => False
  | Killed => reaches_screen f /\ fa_stop f = Signal
  end.
Proof.
  intros [[w|] [e|] [[n e']|] ds st u l] y [U L]; cbn [fa_unraw fa_leave] in *; subst; unfold Tty.term_main, panic, drop, reaches_screen; cbn [fa_new fa_raw fa_prepare fa_drawn fa_stop fa_unraw fa_leave execute snd];
    try (intros (? & ? & ?); discriminate). destruct st; cbn [snd]; auto.
Qed.
Variable sy : styles.
Variable checked : bool.
(** Whatever happens to the client - messages, keys, sizes, the end of the connection, its own panics - the user finds the screen of
    the shell as it was. *)
Theorem C87_shell : forall size files ms ds st y, lives sy checked size files ms ds st -> at_shell y -> st <> Signal ->
  forall f, f = mkFate None None None ds st None None ->
  given_back y [] (fst (term_main f y)) /\ snd (term_main f y) = match st with Panics why => Panicked why | _ => Returned end.
Proof.
  intros size files ms ds st y _ A S f ->. split.
  - exact (C87_given_back_partial (mkFate None None None ds st None None) y A (conj eq_refl eq_refl) (fun _ => S)).
  - destruct st; [reflexivity|reflexivity|congruence].
Qed.
(** What a panic says is put on the screen that is given back with it: once the client has started, no panic is ever seen, and the
    end of the server looks like the exit key. *)
Theorem C87_silent_refuted : forall f y why, at_shell y -> cooperates f -> reaches_screen f -> fa_stop f = Panics why ->
  snd (term_main f y) = Panicked why /\ y_main _ (fst (term_main f y)) = y_main _ y.
Proof.
  intros f y why A Co R P. split.
  - pose proof (C87_endings f y Co) as E. destruct R as (R1 & R2 & R3). destruct f as [f1 f2 f3 ds st u l]. destruct Co as [U L]. cbn [fa_new fa_raw fa_prepare fa_stop fa_unraw fa_leave] in *. subst. reflexivity.
  - assert (given_back y (early f) (fst (term_main f y))) as (_ & _ & G) by (apply C87_given_back_partial; auto; intros _; rewrite P; discriminate).
    rewrite G. destruct R as (R1 & R2 & R3). unfold early. rewrite R1, R2, R3. apply app_nil_r.
Qed.
(** A signal leaves the shell in raw mode, on the other screen, without a cursor. *)
Theorem C87_signal_refuted : forall f y, reaches_screen f -> fa_stop f = Signal ->
  let '(y', e) := term_main f y in e = Killed /\ y_mode _ y' = raw (y_mode _ y) /\ y_alt _ y' = true /\ y_hidden _ y' = true.
Proof.
  intros [f1 f2 f3 ds st u l] y (R1 & R2 & R3) S. cbn [fa_new fa_raw fa_prepare fa_stop] in *. subst. unfold Tty.term_main. cbn [fa_new fa_raw fa_prepare fa_drawn fa_stop execute fold_left obey set_mode].
  rewrite draws_cmds. match goal with |- context[fold_left _ (map Drawn ds) ?y0] => destruct (draws_other (map Drawn ds) y0 eq_refl) as (B & C & D & E) end. cbn zeta in *. auto.
Qed.
(** If the mode cannot be given back, nothing else is, although it could. *)
Theorem C87_all_or_nothing_refuted : forall f y e, reaches_screen f -> fa_stop f = Ends -> fa_unraw f = Some e -> fa_leave f = None ->
  let '(y', end_) := term_main f y in end_ = Panicked (disabled ++ e) /\ y_alt _ y' = true /\ y_hidden _ y' = true.
Proof.
  intros [f1 f2 f3 ds st u l] y e (R1 & R2 & R3) S U L. cbn [fa_new fa_raw fa_prepare fa_stop fa_unraw fa_leave] in *. subst. unfold Tty.term_main. cbn [fa_new fa_raw fa_prepare fa_drawn fa_stop fa_unraw execute fold_left obey set_mode drop].
  rewrite draws_cmds. match goal with |- context[fold_left _ (map Drawn ds) ?y0] => destruct (draws_other (map Drawn ds) y0 eq_refl) as (B & C & _ & _); set (y1 := fold_left _ (map Drawn ds) y0) in * end.
  cbn [Tty.y_hidden] in C. clearbody y1. destruct y1 as [m1 a1 h1 main1 o1]. cbn [Tty.y_alt Tty.y_hidden] in B, C. subst. split; [reflexivity|]. split; reflexivity.
Qed.
End C87.
Print Assumptions C87_given_back_partial.
Print Assumptions C87_endings.
Print Assumptions C87_shell.
Print Assumptions C87_silent_refuted.
Print Assumptions C87_signal_refuted.
Print Assumptions C87_all_or_nothing_refuted.

(** ** cases *)
Definition no_style : styles := {| sy_error := ([], []); sy_selection := ([], []); sy_match := ([], []); sy_len := fun l => List.length (plain_text l) |}.
Definition key_q : tkey := mkTK false true false (TcChar (str "q")).
Definition key_x : tkey := mkTK true false false (TcChar (str "x")).
(* modes are numbers, raw mode is 7; the shell's screen has a line on it *)
Definition shell : tty nat := mkTty nat 3 false false [Said (str "$ ced f")] [].
(* the user makes the window larger and leaves: what was drawn is gone *)
Example C87_demo : exists ds, ds <> [] /\ lives no_style true (80%Z, 24%Z) [str "f"] [MvResize 81 24; MvHandle; MvKey key_q; MvHandle] ds Ends /\
  let '(y, e) := term_main nat (fun _ => 7) (mkFate None None None ds Ends None None) shell in
  e = Returned /\ given_back nat shell [] y /\ map Drawn ds = y_other nat y.
Proof.
  destruct (term_new true (80%Z, 24%Z) [str "f"]) as [t| |] eqn:E; [|vm_compute in E; discriminate E|vm_compute in E; discriminate E].
  destruct (trun no_style true [MvResize 81 24; MvHandle; MvKey key_q; MvHandle] (mkTS t [])) as [s| |] eqn:R.
  2: { exfalso. vm_compute in E. injection E as <-. vm_compute in R. discriminate R. } 2: { exfalso. vm_compute in E. injection E as <-. vm_compute in R. discriminate R. }
  exists (t_out (ts_term s)). split; [|split].
  - vm_compute in E. injection E as <-. vm_compute in R. injection R as <-. discriminate.
  - eapply li_exit; [exact E|exact R|]. vm_compute in E. injection E as <-. vm_compute in R. injection R as <-. reflexivity.
  - vm_compute in E. injection E as <-. vm_compute in R. injection R as <-. vm_compute. auto 10.
Qed.
(* the panic key: the message went to the screen that is gone *)
Example C87_silent_demo : exists ds, lives no_style true (80%Z, 24%Z) [] [MvKey key_x; MvHandle] ds (Panics (str "panic mode activated!")) /\
  let '(y, e) := term_main nat (fun _ => 7) (mkFate None None None ds (Panics (str "panic mode activated!")) None None) shell in
  e = Panicked (str "panic mode activated!") /\ y_main nat y = y_main nat shell /\ In (Said (str "panic mode activated!")) (y_other nat y).
Proof.
  destruct (term_new true (80%Z, 24%Z) []) as [t| |] eqn:E; [|vm_compute in E; discriminate E|vm_compute in E; discriminate E].
  destruct (trun no_style true [MvKey key_x] (mkTS t [])) as [s| |] eqn:R.
  2: { exfalso. vm_compute in E. injection E as <-. vm_compute in R. discriminate R. } 2: { exfalso. vm_compute in E. injection E as <-. vm_compute in R. discriminate R. }
  exists (t_out (ts_term s) ++ []). split.
  - apply (li_panic no_style true (80%Z, 24%Z) [] [MvKey key_x] MvHandle t s "panic mode activated!" [] E R). vm_compute in E. injection E as <-. vm_compute in R. injection R as <-. reflexivity.
  - vm_compute in E. injection E as <-. vm_compute in R. injection R as <-. vm_compute. auto.
Qed.
