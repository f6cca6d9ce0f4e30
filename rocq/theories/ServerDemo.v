(** C42 refuted; runs that meet the hypotheses of C42, C43, C44 and C64. *)
From Coq Require Import String List Arith Lia ZArith Bool.
From Verif Require Import Base ListFacts PieceTable PieceTableSpec PieceTableFacts HistoryFacts History Coords Utf8 Utf8Spec Utf8Facts GraphemeInst Diff Selection NavSpec Maps StackMap Fmt Chars Buffer View Json Proto Keys Core CoreSpec CoreInv CoreOps CoreTame CoreSafe CoreSafeMore PropCore PropSafe Payload Menu MenuSpec MenuFacts PropMenu Editor EditorSpec EditorFacts PropEditor EditorTame PropEditorSafe EditorDemo Server ServerSpec ServerFacts PropServer ServerTame PropServerSafe.
Import ListNotations.

(** runs as a function *)
Section Play.
Variable G : Graphemes.
Variable pol : policy.
Variable u : regex_crate.
Variable se : serde.
Variable L : lua.
Definition play1 (m : smove) (s : server L) : res (server L) :=
  if sv_done L s then Unspec else
  match m with
  | MAccept => Ok (accept L s)
  | MAcceptError => Panic "error while accepting a new client"
  | MLine c line => if existsb (Nat.eqb c) (sv_readers L s) then Ok (read_line L c line s) else Unspec
  | MEnd c => if existsb (Nat.eqb c) (sv_readers L s) then Ok (read_end L c s) else Unspec
  | MDeliver b => match nth_error (ed_out L (sv_editor L s)) (sv_taken L s) with Some x => Ok (deliver L b x s) | None => Unspec end
  | MEvent w b => match sv_events L s with v :: rest => event_step G pol u se L w b v rest s | [] => Unspec end
  end.
Lemma play1_ok m s r : play1 m s = r -> r <> Unspec -> smoves G pol u se L s m r.
Proof.
  unfold play1. intros E N. destruct (sv_done L s) eqn:D; [congruence|]. destruct m; subst r.
  - now apply sm_accept.
  - now apply sm_accept_error.
  - destruct (existsb (Nat.eqb c) (sv_readers L s)) eqn:Q; [|congruence]. apply sm_line; auto. now apply in_existsb.
  - destruct (existsb (Nat.eqb c) (sv_readers L s)) eqn:Q; [|congruence]. apply sm_end; auto. now apply in_existsb.
  - destruct (nth_error _ _) eqn:Q; [|congruence]. now apply sm_deliver.
  - destruct (sv_events L s) eqn:Q; [congruence|]. now apply sm_event.
Qed.
Fixpoint play (ms : list smove) (s : server L) : res (server L) :=
  match ms with [] => Ok s | m :: r => s <- play1 m s ;; play r s end.
Lemma play_runs ms : forall s0 ms0 s s', runs G pol u se L s0 ms0 s -> play ms s = Ok s' -> runs G pol u se L s0 (ms0 ++ ms) s'.
Proof.
  induction ms as [|m ms IH]; intros s0 ms0 s s' R E; cbn [play] in E; [injection E as <-; now rewrite app_nil_r|]. destruct (play1 m s) as [s1| |] eqn:P; try discriminate. cbn [bind] in E.
  replace (ms0 ++ m :: ms) with ((ms0 ++ [m]) ++ ms) by now rewrite <- app_assoc. eapply IH; [|exact E]. eapply ru_move; [exact R|]. apply play1_ok; [exact P|discriminate].
Qed.
End Play.

Definition demo_run (ms : list smove) : res (server demo_lua) :=
  e <- editor_new utf8_graphemes pol_wrap demo_lua demo_world (str "demo") (str "/w") (str "ced") 0 (SDone 0) ;;
  play utf8_graphemes pol_wrap ascii_crate demo_serde demo_lua ms (server_new demo_lua e).
Notation demo_sreach := (sreach utf8_graphemes pol_wrap ascii_crate demo_serde demo_lua).
Notation demo_moves := (smoves utf8_graphemes pol_wrap ascii_crate demo_serde demo_lua).
Lemma demo_run_ok ms s : demo_run ms = Ok s -> demo_sreach ms s.
Proof.
  unfold demo_run. intro E. destruct (editor_new utf8_graphemes pol_wrap demo_lua demo_world (str "demo") (str "/w") (str "ced") 0 (SDone 0)) as [e| |] eqn:N; try discriminate. cbn [bind] in E.
  exists demo_world, (str "demo"), (str "/w"), (str "ced"), 0, (SDone 0), e. split; [exact N|]. exact (play_runs _ _ _ _ _ ms (server_new demo_lua e) [] _ _ (ru_stay _ _ _ _ _ _) E).
Qed.
(** every write succeeds *)
Definition all_good : nat -> bool := fun _ => false.
Definition handle_next : smove := MEvent demo_world all_good.
Definition deliver_next : smove := MDeliver all_good.
Definition ask_quit : text := str "{""jsonrpc"":""2.0"",""id"":8,""method"":""quit"",""params"":null}".

(** A client joins, asks to quit, and closes its connection: the server panics.  (The editor has removed it from the index of
    connections already, server.rs:124-131, and the end of the connection removes it again, server.rs:107-111.) *)
Theorem C42_refuted : exists ms s,
  ms = [MAccept; handle_next; MLine 1 ask_quit; handle_next; MEnd 1] /\ demo_sreach ms s /\
  demo_moves s handle_next (Panic "remove client from index") /\ (forall w b s', ~ demo_moves s (MEvent w b) (Ok s')).
Proof.
  destruct (ok_such (demo_run [MAccept; handle_next; MLine 1 ask_quit; handle_next; MEnd 1])
    (fun s => match sv_events _ s with [VLeave c] => (c =? 1) && negb (existsb (Nat.eqb 1) (sv_index _ s)) | _ => false end
      && match play1 utf8_graphemes pol_wrap ascii_crate demo_serde demo_lua handle_next s with Panic x => String.eqb x "remove client from index" | _ => false end)) as (s & E & K); [vm_compute; reflexivity|].
  eexists _, s. split; [reflexivity|]. apply demo_run_ok in E. split; [exact E|]. apply andb_prop in K. destruct K as [K1 K2]. split.
  - apply play1_ok; [|discriminate]. destruct (play1 _ _ _ _ _ handle_next s) as [| |]; try discriminate. apply String.eqb_eq in K2. now rewrite K2.
  - clear K2. intros w b s' H. apply sreach_inv in E. destruct (sv_events demo_lua s) as [|v [|? ?]] eqn:Ev; try discriminate; [|destruct v; discriminate]. destruct v as [|c|]; try discriminate. apply andb_prop in K1. destruct K1 as [K1 K2]. apply Nat.eqb_eq in K1. subst c. apply negb_true_iff in K2.
    apply (fun H => moves_event _ _ _ _ _ _ _ _ _ _ _ H Ev) in H. apply (event_spec _ _ _ _ _ _ _ _ _ _ _ E) in H. destruct H as (_ & (Hc & _) & _). apply in_existsb in Hc. congruence.
Qed.
(** The last client quits and nobody is left, but the server goes on (until the connection is closed, which is fatal). *)
Theorem C42_refuted_quit : exists ms s, demo_sreach ms s /\ (exists ms', ms = ms' ++ [MLine 1 ask_quit; handle_next]) /\ sv_index _ s = [] /\ sv_done _ s = false.
Proof.
  destruct (ok_such (demo_run [MAccept; handle_next; MLine 1 ask_quit; handle_next]) (fun s => match sv_index _ s with [] => true | _ => false end && negb (sv_done _ s))) as (s & E & K); [vm_compute; reflexivity|].
  eexists _, s. apply demo_run_ok in E. split; [exact E|]. split; [exists [MAccept; handle_next]; reflexivity|]. apply andb_prop in K. destruct K as [K1 K2]. apply negb_true_iff in K2. split; [destruct (sv_index demo_lua s); [reflexivity|discriminate]|exact K2].
Qed.
(** The server stops although a second client connected: it is still in the queue. *)
Theorem C42_refuted_stop : exists ms s, demo_sreach ms s /\ ms = [MAccept; handle_next; MEnd 1; MAccept; handle_next] /\ sv_done _ s = true /\ sv_events _ s = [VJoin 2] /\ In 2 (sv_readers _ s).
Proof.
  destruct (ok_such (demo_run [MAccept; handle_next; MEnd 1; MAccept; handle_next]) (fun s => match sv_events _ s with [VJoin c] => (c =? 2) | _ => false end && sv_done _ s && existsb (Nat.eqb 2) (sv_readers _ s))) as (s & E & K); [vm_compute; reflexivity|].
  eexists _, s. apply demo_run_ok in E. split; [exact E|]. split; [reflexivity|]. apply andb_prop in K. destruct K as [K K3]. apply andb_prop in K. destruct K as [K1 K2]. split; [exact K2|]. split; [|now apply in_existsb].
  destruct (sv_events demo_lua s) as [|[c|c|c x] [|? ?]]; try discriminate. apply Nat.eqb_eq in K1. now subst.
Qed.
(** An error of the operating system is fatal to everybody: accepting a connection, or answering a client that is gone. *)
Theorem C42_refuted_io : forall G pol u se L (s : server L),
  (forall r, smoves G pol u se L s MAcceptError r -> forall s', r <> Ok s') /\
  (forall w b c line rest r, sv_events L s = VMessage c line :: rest -> b c = true -> smoves G pol u se L s (MEvent w b) r -> forall s', r <> Ok s').
Proof.
  intros G pol u se L s. split.
  - intros r H s' ->. inversion H.
  - intros w b c line rest r Ev B H s' ->. apply (fun H => moves_event _ _ _ _ _ _ _ _ _ _ _ H Ev) in H. unfold event_step in H. cbn [on_event] in H. bnd H. bnd E. destruct v0 as [r e]. rewrite B in E. destruct (negb _); discriminate.
Qed.

(** Two clients; the notifications for each are delivered, and one leaves. *)
Example C44_demo : exists s, demo_sreach [MAccept; handle_next; MAccept; handle_next; deliver_next; deliver_next; deliver_next; MLine 1 no_request; MLine 2 no_request; handle_next; handle_next; MEnd 1; deliver_next; deliver_next; handle_next] s /\
  sv_index _ s = [2] /\ sv_done _ s = false /\ length (notified (sv_log _ s) 1) = 4 /\ length (notified (sv_log _ s) 2) = 1 /\ length (answered (sv_log _ s) 1) = 1.
Proof.
  destruct (ok_such (demo_run [MAccept; handle_next; MAccept; handle_next; deliver_next; deliver_next; deliver_next; MLine 1 no_request; MLine 2 no_request; handle_next; handle_next; MEnd 1; deliver_next; deliver_next; handle_next])
    (fun s => list_nat_eqb ([length (notified (sv_log _ s) 1); length (notified (sv_log _ s) 2); length (answered (sv_log _ s) 1)] ++ sv_index _ s) [4; 1; 1; 2] && negb (sv_done _ s))) as (s & E & K); [vm_compute; reflexivity|].
  exists s. apply demo_run_ok in E. split; [exact E|]. clear E. apply andb_prop in K. destruct K as [K1 K2]. apply negb_true_iff in K2. change (eqb ([length (notified (sv_log _ s) 1); length (notified (sv_log _ s) 2); length (answered (sv_log _ s) 1)] ++ sv_index _ s) [4; 1; 1; 2] = true) in K1. apply eqb_ok in K1. injection K1 as A B C D. auto.
Qed.
(** A careful session: a client joins, sends a line that is no request, is answered, leaves; the server stops. *)
Example C42_demo : exists s, careful_server utf8_graphemes pol_wrap ascii_crate demo_serde demo_lua s /\ sv_done _ s = true /\ length (answered (sv_log _ s) 1) = 1.
Proof.
  pose proof (C42_careful_partial utf8_graphemes pol_wrap pol_wrap_fine ascii_crate demo_serde demo_lua) as Go.
  assert (exists e0, editor_new utf8_graphemes pol_wrap demo_lua demo_world (str "demo") (str "/w") (str "ced") 0 (SDone 0) = Ok e0 /\ demo_reach e0) as (e0 & E0 & R0).
  { apply C37_starts_partial; [apply pol_wrap_fine|apply plain_str; reflexivity..| |]. - intros k _. exact Logic.I. - intros e r e' H. injection H as <- _. reflexivity. }
  pose proof (cs_new _ _ ascii_crate demo_serde _ _ _ _ _ _ _ _ E0 R0) as C0. set (s0 := server_new demo_lua e0) in *.
  pose proof (sm_accept utf8_graphemes pol_wrap ascii_crate demo_serde demo_lua s0 eq_refl) as M1. pose proof (cs_move _ _ _ _ _ s0 MAccept _ C0 Logic.I M1) as C1. set (s1 := accept demo_lua s0) in *.
  (* it joins *)
  assert (sv_events demo_lua s1 = [VJoin 1]) as Ev1 by reflexivity.
  assert (careful_move utf8_graphemes pol_wrap ascii_crate demo_serde demo_lua s1 handle_next) as K1.
  { intros v rest Ev. rewrite Ev1 in Ev. injection Ev as <- <-. split; [|intros c line X; discriminate X]. cbn [as_event]. split; [|intros; apply execs_careful]. right. exists (str "*debug*{*}|*scratch*{*}"). intros key H.
    assert ((match editor_new utf8_graphemes pol_wrap demo_lua demo_world (str "demo") (str "/w") (str "ced") 0 (SDone 0) with Ok e => keys (vmap (ed_core _ e)) | _ => [] end) = [str "*debug*{*}|*scratch*{*}"]) as K by (vm_compute; reflexivity).
    rewrite E0 in K. change (In key (keys (vmap (ed_core _ e0)))) in H. rewrite K in H. destruct H as [<-|[]]. reflexivity. }
  pose proof (sm_event utf8_graphemes pol_wrap ascii_crate demo_serde demo_lua s1 demo_world all_good _ _ eq_refl Ev1) as M2. destruct (Go _ _ _ C1 K1 M2) as (s2 & E2 & C2). rewrite E2 in M2.
  destruct (event_spec _ _ _ _ _ _ _ _ _ _ _ (proj1 (careful_server_inv _ _ pol_wrap_fine _ _ _ _ C1)) E2) as (_ & _ & L2 & Ev2 & Rd2 & _ & _ & _ & D2 & _). cbn [log_change] in L2.
  assert (sv_done demo_lua s2 = false) as Dn2. { destruct (sv_done demo_lua s2); [|reflexivity]. destruct (proj1 D2 eq_refl) as [(c & X) _]. discriminate X. }
  (* it sends a line *)
  assert (In 1 (sv_readers demo_lua s2)) as Hr2 by (rewrite Rd2; left; reflexivity).
  pose proof (sm_line utf8_graphemes pol_wrap ascii_crate demo_serde demo_lua s2 1 no_request Dn2 Hr2) as M3. pose proof (cs_move _ _ _ _ _ s2 (MLine 1 no_request) _ C2 Logic.I M3) as C3. set (s3 := read_line demo_lua 1 no_request s2) in *.
  assert (sv_events demo_lua s3 = [VMessage 1 no_request]) as Ev3 by (unfold s3; cbn [read_line sv_events]; rewrite Ev2; reflexivity).
  assert (careful_move utf8_graphemes pol_wrap ascii_crate demo_serde demo_lua s3 handle_next) as K3.
  { intros v rest Ev. rewrite Ev3 in Ev. injection Ev as <- <-. assert (parse_request no_request = None) as P by (vm_compute; reflexivity). split.
    - cbn [as_event careful]. unfold careful_line. rewrite P. split; apply plain_str; reflexivity.
    - intros c line X. injection X as <- <-. split; [reflexivity|]. intros (q & X & _). rewrite P in X. discriminate X. }
  pose proof (sm_event utf8_graphemes pol_wrap ascii_crate demo_serde demo_lua s3 demo_world all_good _ _ Dn2 Ev3) as M4. destruct (Go _ _ _ C3 K3 M4) as (s4 & E4 & C4). rewrite E4 in M4.
  destruct (event_spec _ _ _ _ _ _ _ _ _ _ _ (proj1 (careful_server_inv _ _ pol_wrap_fine _ _ _ _ C3)) E4) as (_ & Ix4 & (r4 & e4 & _ & L4) & Ev4 & Rd4 & _ & _ & _ & D4 & _). cbn [index_change] in Ix4.
  assert (sv_done demo_lua s4 = false) as Dn4. { destruct (sv_done demo_lua s4); [|reflexivity]. destruct (proj1 D4 eq_refl) as [(c & X) _]. discriminate X. }
  (* it leaves *)
  assert (In 1 (sv_readers demo_lua s4)) as Hr4 by (rewrite Rd4; exact Hr2).
  pose proof (sm_end utf8_graphemes pol_wrap ascii_crate demo_serde demo_lua s4 1 Dn4 Hr4) as M5. pose proof (cs_move _ _ _ _ _ s4 (MEnd 1) _ C4 Logic.I M5) as C5. set (s5 := read_end demo_lua 1 s4) in *.
  assert (sv_events demo_lua s5 = [VLeave 1]) as Ev5 by (unfold s5; cbn [read_end sv_events]; rewrite Ev4; reflexivity).
  assert (careful_move utf8_graphemes pol_wrap ascii_crate demo_serde demo_lua s5 handle_next) as K5.
  { intros v rest Ev. rewrite Ev5 in Ev. injection Ev as <- <-. split; [|intros c line X; discriminate X]. cbn [as_event careful]. intros; apply execs_careful. }
  pose proof (sm_event utf8_graphemes pol_wrap ascii_crate demo_serde demo_lua s5 demo_world all_good _ _ Dn4 Ev5) as M6. destruct (Go _ _ _ C5 K5 M6) as (s6 & E6 & C6).
  destruct (event_spec _ _ _ _ _ _ _ _ _ _ _ (proj1 (careful_server_inv _ _ pol_wrap_fine _ _ _ _ C5)) E6) as (_ & Ix6 & L6 & _ & _ & _ & _ & _ & D6 & _). cbn [log_change index_change] in L6, Ix6.
  destruct (event_spec _ _ _ _ _ _ _ _ _ _ _ (proj1 (careful_server_inv _ _ pol_wrap_fine _ _ _ _ C1)) E2) as (_ & Ix2 & _). cbn [index_change] in Ix2.
  exists s6. split; [exact C6|]. split.
  - apply D6. split; [exists 1; reflexivity|]. destruct (sv_index demo_lua s6) as [|x l] eqn:Q; [reflexivity|]. exfalso. destruct Ix6 as [_ Ix6]. destruct (proj1 (Ix6 x) (or_introl eq_refl)) as [H6 N6]. change (In x (sv_index demo_lua s4)) in H6. apply (proj2 Ix4) in H6. destruct H6 as [H6 _]. change (In x (sv_index demo_lua s2)) in H6. apply Ix2 in H6. destruct H6 as [H6|H6]; [contradiction|]. destruct H6.
  - rewrite L6. change (sv_log demo_lua s5) with (sv_log demo_lua s4). rewrite L4. change (sv_log demo_lua s3) with (sv_log demo_lua s2). rewrite L2. reflexivity.
Qed.
Print Assumptions C42_refuted.
Print Assumptions C42_demo.
