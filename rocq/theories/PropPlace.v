(** C85: a FILE of the command line is the file of that name where the command was given. *)
From Coq Require Import String List Arith Lia Bool.
From Verif Require Import Base ListFacts Maps PieceTable Coords Utf8 Utf8Facts Diff Selection StackMap Buffer View Core CoreSpec History HistoryFacts GraphemeInst FileSyncSpec FileSync PropFileSync PropCore Daemon PropDaemon Place.
Import ListNotations.

(** ** vocabulary *)
(** One thing at a time, as in C71: commands are given, and clients leave, when nothing is in progress; no crash; servers are started by clients only. *)
Definition calmly (s : placed) (m : dmove) : Prop :=
  match m with
  | Server _ | Client _ | Join _ => True
  | Start _ _ _ | Leave _ => settled (pl_machine s)
  | Serve _ _ | Crash _ => False
  end.
Inductive calm_run (s0 : placed) : list (dmove * text) -> placed -> Prop :=
| cr_start : calm_run s0 [] s0
| cr_move ms s m dir s' : calm_run s0 ms s -> calmly s m -> pmoves s m dir s' -> calm_run s0 (ms ++ [(m, dir)]) s'.
(** client [c] was started in [dir], and is on server [i] *)
Definition client_in (s : placed) (c : nat) (dir : text) : Prop := pl_client s c = Some dir.
Definition on_server (s : placed) (c i : nat) : Prop := exists n, m_clients (pl_machine s) c = Some (n, CJoined i).
(** an editor that runs in server [i] *)
Definition editor_of (G : Graphemes) (pol : policy) (s : placed) (i : nat) (k : core) : Prop :=
  exists dir args k0, pl_server s i = Some dir /\ editor_init G dir args = Ok k0 /\ meanwhile G pol (fun _ => True) k0 k.
(** a directory: an absolute path, not the root; a relative name; the file [name] seen from [dir] *)
Definition directory (dir : text) : Prop := (exists rest, dir = str "/" ++ rest) /\ last dir 0 <> 47.
Definition relative (name : text) : Prop := hd 0 name <> 47.
Definition seen_from (dir name : text) : text := dir ++ str "/" ++ name.
(** the text a file is opened with *)
Definition closed (x : text) : text := if ends_lf x then x else x ++ [LF].

(** ** where servers run *)
Lemma calm_of s0 ms s : calm (pl_machine s0) -> calm_run s0 ms s -> calm (pl_machine s).
Proof.
  intro C0. induction 1 as [|ms s m dir s' H IH C M]; [exact C0|]. inversion M as [m0 dir0 s1 D]; subst. assert (pl_machine (settle s m dir s1) = s1) as -> by (destruct m; reflexivity).
  destruct m; cbn [calmly] in C; try contradiction; [eapply ca_client; eauto|eapply ca_internal; eauto; exact Logic.I..|eapply ca_leave; eauto].
Qed.
Lemma pruns_of s0 ms s : calm_run s0 ms s -> pruns s0 ms s.
Proof. induction 1; econstructor; eauto. Qed.
Lemma druns_of ms s : pruns placed0 ms s -> druns machine0 (map fst ms) (pl_machine s).
Proof.
  induction 1 as [|ms s1 m dir s2 H IH M]; [constructor|]. rewrite map_app. econstructor; eauto. inversion M; subst. destruct m; assumption.
Qed.
(** only commands place processes, and processes are placed once *)
Lemma server_kept s m dir s' i x : pmoves s m dir s' -> (pl_server s i <> None <-> m_servers (pl_machine s) i <> None) -> pl_server s i = Some x -> pl_server s' i = Some x.
Proof.
  intros M W E. inversion M as [m0 dir0 s1 D]; subst. destruct m as [c n j|j n|j|c|c|c|j]; try exact E; cbn [settle pl_server].
  - inversion D; subst.
    + match goal with X : m_sock _ n = Some _ |- _ => rewrite X end. exact E.
    + match goal with X : m_sock _ n = None |- _ => rewrite X end. unfold put. destruct (Nat.eqb_spec i j) as [->|]; [|exact E]. exfalso. apply (proj1 W); [congruence|assumption].
  - inversion D; subst. unfold put. destruct (Nat.eqb_spec i j) as [->|]; [|exact E]. exfalso. apply (proj1 W); [congruence|assumption].
Qed.
Lemma ended_servers i n s j : m_servers s i <> None -> (m_servers (ended i n s) j <> None <-> m_servers s j <> None).
Proof. intro H. cbn [ended m_servers]. unfold put. destruct (Nat.eqb_spec j i) as [->|]; [|tauto]. split; [auto|discriminate]. Qed.
Lemma set_servers i n p s j : m_servers s i <> None -> (m_servers (set_server i n p s) j <> None <-> m_servers s j <> None).
Proof. intro H. cbn [set_server m_servers]. unfold put. destruct (Nat.eqb_spec j i) as [->|]; [|tauto]. split; [auto|discriminate]. Qed.
Lemma placed_servers s m dir s' : pmoves s m dir s' -> (forall i, pl_server s i <> None <-> m_servers (pl_machine s) i <> None) -> forall i, pl_server s' i <> None <-> m_servers (pl_machine s') i <> None.
Proof.
  intros M W i. inversion M as [m0 dir0 s1 D]; subst. specialize (W i). destruct m as [c n j|j n|j|c|c|c|j]; cbn [settle pl_server pl_machine].
  1: { inversion D; subst; match goal with X : m_sock _ n = _ |- _ => rewrite X end; [exact W|]. cbn [set_client set_server m_servers]. unfold put. destruct (Nat.eqb_spec i j); [split; intros _ X; discriminate|exact W]. }
  1: { inversion D; subst. cbn [set_server m_servers]. unfold put. destruct (Nat.eqb_spec i j); [split; intros _ X; discriminate|exact W]. }
  all: inversion D; subst; cbn [set_client set_sock set_dir m_servers]; try exact W;
    rewrite W; symmetry; (apply ended_servers || apply (set_servers _ _ _ (pl_machine s)) || apply (set_servers _ _ _ _)); cbn [set_client set_server m_servers]; congruence.
Qed.
Lemma placed_ok ms s : pruns placed0 ms s -> forall i, pl_server s i <> None <-> m_servers (pl_machine s) i <> None.
Proof. induction 1 as [|ms s1 m dir s2 H IH M]; [intro i; tauto|]. eapply placed_servers; eauto. Qed.
Lemma pruns_cut ms ms' s : pruns placed0 (ms ++ ms') s -> exists s0, pruns placed0 ms s0 /\ pruns s0 ms' s.
Proof.
  remember (ms ++ ms') as l eqn:Q. intro R. revert ms' Q. induction R as [|l s1 m dir s2 R IH M]; intros ms' Q.
  - symmetry in Q. apply app_eq_nil in Q. destruct Q as [-> ->]. exists placed0. split; constructor.
  - destruct ms' as [|y ms' _] using rev_ind.
    + rewrite app_nil_r in Q. subst. exists s2. split; [econstructor; eauto|constructor].
    + rewrite app_assoc in Q. apply app_inj_tail in Q. destruct Q as [Q <-]. destruct (IH _ Q) as (s0 & A & B). exists s0. split; [exact A|]. econstructor; eauto.
Qed.
Lemma server_stays s ms s' i x : pruns s ms s' -> (forall j, pl_server s j <> None <-> m_servers (pl_machine s) j <> None) -> pl_server s i = Some x -> pl_server s' i = Some x /\ forall j, pl_server s' j <> None <-> m_servers (pl_machine s') j <> None.
Proof.
  induction 1 as [|ms s1 m dir s2 H IH M]; intros W E; [auto|]. destruct (IH W E) as [A B]. split; [eapply server_kept; eauto|eapply placed_servers; eauto].
Qed.
Lemma client_stays s ms s' c x : pruns s ms s' -> m_clients (pl_machine s) c <> None -> pl_client s c = Some x -> pl_client s' c = Some x /\ m_clients (pl_machine s') c <> None.
Proof.
  induction 1 as [|ms s1 m dir s2 H IH M]; intros W E; [auto|]. destruct (IH W E) as [A B]. inversion M as [m0 dir0 s3 D]; subst.
  assert (pl_machine (settle s1 m dir s3) = s3) as -> by (destruct m; reflexivity). split.
  - destruct m; try exact A. cbn [settle pl_client]. unfold put. destruct (Nat.eqb_spec c c0) as [->|]; [|exact A]. inversion D; subst; contradiction.
  - inversion D; subst; cbn [set_client set_server set_sock set_dir ended m_clients]; try exact B; unfold put; try (destruct (c =? _); [discriminate|exact B]); destruct (m_clients (pl_machine s1) c) as [[]|]; try discriminate; contradiction.
Qed.

(** ** the client that starts the server gets onto it *)
Definition heads (s : machine) (c i : nat) (n : text) : Prop :=
  match m_clients s c with
  | Some (m, CWaiting j) => m = n /\ j = i
  | Some (m, CConnecting) => m = n /\ m_sock s n = Some i
  | Some (m, CConnected j) | Some (m, CJoined j) => j = i
  | _ => True
  end.
Lemma connecting_servers s k c m : ok s k -> m_clients s c = Some (m, CConnecting) -> forall j, settled_server (m_servers s j).
Proof.
  intros [B Sh] H. assert (~ settled_client (m_clients s c)) as NS by (intro X; destruct (X _ _ H) as [[j Y]|Y]; discriminate).
  destruct Sh as [[_ Sc]|c0 n0 i0 p0 k H1 H2 H3 H4 H5|c0 n0 i0 H1 H2 H3 H4|c0 n0 i0 H1 H2 H3 H4|i0 n0 H1 H2 H3 H4|i0 n0 H1 H2 H3]; try (exfalso; now auto).
  all: destruct (Nat.eq_dec c c0) as [->|Nc]; [|now destruct (NS (H4 c Nc))]; rewrite H in H1; try discriminate. exact H3.
Qed.
Lemma waiting_sock s k c n i q p : ok s k -> m_clients s c = Some (n, CWaiting i) -> m_servers s i = Some (q, p) -> p = Listening \/ p = Dead -> m_sock s n = Some i.
Proof.
  intros [B Sh] H E Hp. assert (~ settled_client (m_clients s c)) as NS by (intro X; destruct (X _ _ H) as [[j Y]|Y]; discriminate).
  destruct Sh as [[_ Sc]|c0 n0 i0 p0 k H1 H2 H3 H4 H5|c0 n0 i0 H1 H2 H3 H4|c0 n0 i0 H1 H2 H3 H4|i0 n0 H1 H2 H3 H4|i0 n0 H1 H2 H3]; try (exfalso; now auto).
  all: destruct (Nat.eq_dec c c0) as [->|Nc]; [|now destruct (NS (H4 c Nc))]; rewrite H in H1; try discriminate. injection H1 as <- <-. rewrite E in H2. injection H2 as -> ->.
  apply (b_listening _ B). rewrite E. f_equal. f_equal. destruct Hp as [X|X]; [exact X|]. subst. destruct H5 as [[X _]|[[X _]|[[X _]|[X _]]]]; discriminate.
Qed.
Lemma heads_move s m s' c i n k : ok s k -> (forall d a j, m = Start d a j -> settled s) -> dmoves s m s' -> m_clients s c <> None -> heads s c i n -> heads s' c i n.
Proof.
  intros O I M W H. pose proof (connecting_servers s k c) as Cs.
  assert (forall a j p, m_servers s j = Some (a, p) -> p <> Listening -> p <> Dead -> forall b, m_clients s c <> Some (b, CConnecting)) as No.
  { intros a j p Hj N1 N2 b X. destruct (Cs _ O X j _ _ Hj); contradiction. }
  unfold heads in *. destruct M as [d a b j Hd Sd|d a b Hd Sd Fb|b a Fb|j a Hj|j a Hj Dj Sj|j a Hj Ej|j a Hj|j a b Hj Sj|j a Hj Sj|j a Hj Ej|j a Hj Ej|d a j b p Hd Hj Hp|d a j b p Hd Sd Hj Hp|d a Hd Sd|d a j b p Hd Sd Hj N1 N2|d a j Hd Hj|d a j Hd Hj Ho|d a j Hd Hj Ho|j a p Hj Np]; unfold m_sock in *; cbn [set_client set_server set_sock set_dir ended m_clients m_socks] in *.
  1,2: unfold put; destruct (Nat.eqb_spec c d) as [->|]; [contradiction|]; exact H.
  1,2: exact H.
  - destruct (m_clients s c) as [[b [x| |x|x| | |]]|] eqn:Q; try exact H. now destruct (No _ _ _ Hj ltac:(discriminate) ltac:(discriminate) b).
  - exact H.
  - exact H.
  - destruct (m_clients s c) as [[b' [x| |x|x| | |]]|] eqn:Q; try exact H. now destruct (No _ _ _ Hj ltac:(discriminate) ltac:(discriminate) b').
  - destruct (m_clients s c) as [[b [x| |x|x| | |]]|]; cbn [cut]; try exact H; destruct (x =? j); try exact Logic.I; exact H.
  - destruct (m_clients s c) as [[b [x| |x|x| | |]]|]; cbn [cut]; try exact H; destruct (x =? j); try exact Logic.I; exact H.
  - destruct (m_clients s c) as [[b [x| |x|x| | |]]|]; cbn [cut]; try exact H; destruct (x =? j); try exact Logic.I; exact H.
  - unfold put. destruct (Nat.eqb_spec c d) as [->|]; [|exact H]. rewrite Hd in H. destruct H as [-> ->]. split; [reflexivity|]. apply (waiting_sock _ _ _ _ _ _ _ O Hd Hj Hp).
  - unfold put. destruct (Nat.eqb_spec c d) as [->|]; [|exact H]. rewrite Hd in H. destruct H as [-> X]. congruence.
  - unfold put. destruct (Nat.eqb_spec c d) as [->|]; [exact Logic.I|exact H].
  - unfold put. destruct (Nat.eqb_spec c d) as [->|]; [exact Logic.I|exact H].
  - unfold put. destruct (Nat.eqb_spec c d) as [->|]; [|exact H]. rewrite Hd in H. exact H.
  - unfold put. destruct (Nat.eqb_spec c d) as [->|]; [exact Logic.I|exact H].
  - unfold put. destruct (Nat.eqb_spec c d) as [->|]; [exact Logic.I|exact H].
  - destruct (m_clients s c) as [[b [x| |x|x| | |]]|]; cbn [cut]; try exact H; destruct (x =? j); try exact Logic.I; exact H.
Qed.
Lemma present_runs s ms s' c : pruns s ms s' -> m_clients (pl_machine s) c <> None -> m_clients (pl_machine s') c <> None.
Proof.
  intros B W. induction B as [|ms s1 m dir s2 H IH M]; [exact W|]. clear W. inversion M as [m0 dir0 s3 D]; subst. assert (pl_machine (settle s1 m dir s3) = s3) as -> by (destruct m; reflexivity).
  inversion D; subst; cbn [set_client set_server set_sock set_dir ended m_clients]; try exact IH; unfold put; try (destruct (c =? _); [discriminate|exact IH]); destruct (m_clients (pl_machine s1) c) as [[]|]; try discriminate; contradiction.
Qed.
Lemma heads_runs s0 ms s c i n : calm (pl_machine s0) -> calm_run s0 ms s -> m_clients (pl_machine s0) c <> None -> heads (pl_machine s0) c i n -> heads (pl_machine s) c i n.
Proof.
  intros C0 R W H. induction R as [|ms s1 m dir s2 R IH Cm M]; [exact H|]. inversion M as [m0 dir0 s3 D]; subst. assert (pl_machine (settle s1 m dir s3) = s3) as -> by (destruct m; reflexivity).
  destruct (calm_ok _ (calm_of _ _ _ C0 R)) as [k O]. eapply heads_move; [exact O| |exact D| |exact IH].
  - intros d a j ->. exact Cm.
  - eapply present_runs; [eapply pruns_of; exact R|exact W].
Qed.
Lemma calm_cons s0 m dir ms s : calm_run s0 ((m, dir) :: ms) s -> exists s1, calmly s0 m /\ pmoves s0 m dir s1 /\ calm_run s1 ms s.
Proof.
  remember ((m, dir) :: ms) as l eqn:Q. intro R. revert ms Q. induction R as [|l s1 m1 dir1 s2 R IH Cm M]; intros ms Q; [discriminate|].
  destruct ms as [|y ms _] using rev_ind.
  - destruct l as [|z l]; [|destruct l; discriminate]. injection Q as -> ->. inversion R; [|destruct ms; discriminate]. subst. exists s2. split; [exact Cm|]. split; [exact M|]. constructor.
  - rewrite app_comm_cons in Q. apply app_inj_tail in Q. destruct Q as [Q <-]. destruct (IH _ Q) as (s3 & A & B & C). exists s3. split; [exact A|]. split; [exact B|]. econstructor; eauto.
Qed.

(** ** C85 *)
(** where the editor of a server looks *)
Lemma editor_cwd G pol s i dir k : editor_of G pol s i k -> pl_server s i = Some dir -> k_cwd k = dir.
Proof.
  intros (dir' & args & k0 & A & I & M) E. rewrite E in A. injection A as <-. rewrite (meanwhile_cwd _ _ _ _ _ M). clear - I.
  assert (held dir (fun _ _ => True) k0) as H by (eapply (held_init G dir (fun _ _ => True)); [intros; exact Logic.I..|exact I]). apply H.
Qed.
Lemma seen_join dir name : directory dir -> relative name -> path_join dir name = seen_from dir name.
Proof.
  intros [(rest & Hd) Hl] Hn. unfold seen_from, path_join. assert (dir <> []) as Hc by (subst dir; discriminate). destruct (exists_last Hc) as (c & z & Ez). rewrite Ez in *. rewrite rev_unit. rewrite last_last in Hl. unfold relative in Hn.
  destruct name as [|n name]; [|cbn [hd] in Hn]; repeat match goal with |- context [match ?v with 0 => _ | S _ => _ end] => destruct v; try reflexivity; try (exfalso; lia) end.
Qed.
(** What a FILE opens, whoever asks: an absolute name is that file; a relative one is looked up where the server runs.
    (The file is not open yet; the directory of the server is not the root.) *)
Definition looked_up (dir name : text) : text := if hd 0 name =? 47 then name else seen_from dir name.
Definition opens_from (dir : text) (s : placed) (i : nat) : Prop :=
  forall G pol k d id name r k' x, editor_of G pol s i k -> name <> b_debug -> ~ open k name ->
    (* whatever number the server gave the client *)
    run_call G pol d (CEdit id name false) k = Ok (r, k') -> dk_read d (looked_up dir name) = Some x -> text_in k' name (closed x).
Lemma opened_in s i dir : pl_server s i = Some dir -> directory dir -> opens_from dir s i.
Proof.
  intros Es Dd G pol k d id name r k' x Ed Nd No E R. pose proof (editor_cwd _ _ _ _ _ _ Ed Es) as W. unfold looked_up in R. eapply C83_path; eauto. destruct (Nat.eqb_spec (hd 0 name) 47) as [Q|Q].
  - left. destruct name as [|n rest]; [discriminate|]. cbn [hd] in Q. subst n. exists rest. split; [reflexivity|exact R].
  - right. rewrite W. destruct Dd as [(rest & Hd) Hl]. split; [exact Q|]. split; [subst dir; discriminate|]. split; [exact Hl|]. exact R.
Qed.
(** The client that starts the server of its session: it gets onto that server, and its FILEs are the files of those names where its command
    was given.  Missing from the full property: the same for a client that finds the session running, which [C85_shared_refuted] refutes. *)
Theorem C85_starter_partial : forall before s0 c n i dir after s j,
  calm_run placed0 before s0 -> m_sock (pl_machine s0) n = None -> calm_run s0 ((Start c n i, dir) :: after) s ->
  on_server s c j -> directory dir ->
  j = i /\ client_in s c dir /\ opens_from dir s j.
Proof.
  intros before s0 c n i dir after s j R0 N0 R (q & Hj) Dd. pose proof (calm_of placed0 _ _ ca_start R0) as C0.
  destruct (calm_cons _ _ _ _ _ R) as (s1 & Cm & M & Ra). assert (calm (pl_machine s1)) as C1. { eapply (calm_of s0 ([] ++ [(Start c n i, dir)])); [exact C0|]. econstructor; [constructor|exact Cm|exact M]. }
  inversion M as [m0 dir0 s3 D]; subst. cbn [settle] in *. rewrite N0 in *. inversion D as [|c0 n0 i0 Hc Hs Hi| | | | | | | | | | | | | | | | |]; subst; [congruence|]. clear M D.
  assert (j = i) as ->.
  { assert (heads (pl_machine s) c i n) as Hd.
    { eapply heads_runs; [exact C1|exact Ra| |]; cbn [pl_machine]; unfold heads; cbn [set_client m_clients]; rewrite put_same; [discriminate|split; reflexivity]. }
    unfold heads in Hd. rewrite Hj in Hd. exact Hd. }
  pose proof (placed_ok _ _ (pruns_of _ _ _ R0)) as W0. pose proof (pruns_of _ _ _ Ra) as Pa.
  assert (pl_server s i = Some dir) as Sv.
  { eapply (proj1 (server_stays _ _ _ _ _ Pa _ _)). Unshelve.
    - intro x. cbn [pl_server pl_machine set_client set_server m_servers]. unfold put. destruct (Nat.eqb_spec x i); [split; intros _ X; discriminate|apply W0].
    - cbn [pl_server]. apply put_same. }
  split; [reflexivity|]. split; [|eapply opened_in; eauto].
  eapply (proj1 (client_stays _ _ _ _ _ Pa _ _)). Unshelve.
  - cbn [pl_machine set_client m_clients]. rewrite put_same. discriminate.
  - cbn [pl_client]. apply put_same.
Qed.
Print Assumptions C85_starter_partial.

(** ** sharing a session *)
(** the commands of the first client of session [n], given in [dir], and of a later one, until they are on the server *)
Definition joins (c : nat) (n : text) (i : nat) (dir : text) : list (dmove * text) := map (fun m => (m, dir)) [Start c n i; Client c; Join c].
Definition starts (c : nat) (n : text) (i : nat) (dir : text) : list (dmove * text) := map (fun m => (m, dir)) (first c i n).
Lemma lifted dir s m ms M' : druns (pl_machine s) (m :: ms) M' -> calmly s m -> Forall internal ms ->
  exists s', calm_run s (map (fun m => (m, dir)) (m :: ms)) s' /\ pl_machine s' = M'.
Proof.
  intros R C I. remember (m :: ms) as l eqn:Q. revert ms Q I. induction R as [|l M1 m1 M2 R IH D]; intros ms Q I; [discriminate|]. rewrite map_app. destruct ms as [|y ms _] using rev_ind.
  - destruct l as [|z l]; [|destruct l; discriminate]. injection Q as ->. inversion R; [|destruct ms; discriminate]. subst. exists (settle s m dir M2). split; [|destruct m; reflexivity].
    eapply cr_move; [constructor|exact C|]. apply pm_move. exact D.
  - rewrite app_comm_cons in Q. apply app_inj_tail in Q. destruct Q as [-> ->]. apply Forall_app in I. destruct I as [I Iy]. inversion Iy as [|y0 l0 Iy1 _]; subst. destruct (IH ms eq_refl I) as (s1 & A & <-). exists (settle s1 y dir M2). split; [|destruct y; reflexivity].
    eapply cr_move; [exact A| |apply pm_move; exact D]. destruct y; try contradiction; exact Logic.I.
Qed.
Lemma shared_runs n a b : exists s, calm_run placed0 (starts 0 n 0 a ++ joins 1 n 1 b) s /\ on_server s 0 0 /\ on_server s 1 0 /\ pl_server s 0 = Some a /\ client_in s 0 a /\ client_in s 1 b.
Proof.
  destruct (first_run machine0 0 n 0) as (M1 & R1 & A & B & C & D & E & _); try reflexivity. destruct (lifted a placed0 _ _ _ R1) as (s1 & L1 & <-).
  { cbn [calmly placed0 pl_machine]. split; intros x y p X; discriminate. } { repeat (apply Forall_cons; [exact Logic.I|]). apply Forall_nil. }
  assert (settled (pl_machine s1)) as St1.
  { split; intro x; [destruct (Nat.eq_dec x 0) as [->|N]; [rewrite B|rewrite (E x N)]|destruct (Nat.eq_dec x 0) as [->|N]; [rewrite A|rewrite (D x N)]]; intros y p X; try discriminate X; injection X as <- <-; [now left|left; now exists 0]. }
  assert (exists M2, druns (pl_machine s1) [Start 1 n 1; Client 1; Join 1] M2 /\ m_clients M2 1 = Some (n, CJoined 0) /\ m_clients M2 0 = Some (n, CJoined 0)) as (M2 & R2 & A2 & B2).
  { eexists. split; [|split].
    - eapply du_cons; [eapply dm_start_there; [apply D; discriminate|exact C]|]. eapply du_cons; [eapply dm_connect; [ss; apply put_same|exact C|exact B|now left]|]. eapply du_cons; [eapply dm_join; [ss; apply put_same|exact B]|]. constructor.
    - ss. apply put_same.
    - ss. rewrite !put_other by discriminate. exact A. }
  destruct (lifted b s1 _ _ _ R2) as (s2 & L2 & <-). { exact St1. } { repeat (apply Forall_cons; [exact Logic.I|]). apply Forall_nil. }
  exists s2. split; [|split; [exists n; exact B2|split; [exists n; exact A2|]]].
  { clear - L1 L2. change (map (fun m => (m, b)) [Start 1 n 1; Client 1; Join 1]) with (joins 1 n 1 b) in L2. change (map (fun m => (m, a)) _) with (starts 0 n 0 a) in L1. revert L2. generalize (joins 1 n 1 b). intros l L2. induction L2 as [|l s m dir s' H IH Cm M]; [now rewrite app_nil_r|]. rewrite app_assoc. econstructor; eauto. }
  assert (pl_server s1 0 = Some a /\ forall j, pl_server s1 j <> None <-> m_servers (pl_machine s1) j <> None) as [S1 W1].
  { pose proof (placed_ok _ _ (pruns_of _ _ _ L1)) as W1. split; [|exact W1]. cbn [map] in L1. destruct (calm_cons _ _ _ _ _ L1) as (x & Cx & Mx & Rx). inversion Mx as [m0 dir0 s3 Dx]; subst.
    apply (server_stays _ _ _ _ _ (pruns_of _ _ _ Rx)); [|reflexivity]. intro j. cbn [settle pl_server pl_machine placed0]. inversion Dx; subst; [match goal with X : m_sock _ _ = Some _ |- _ => discriminate X end|].
    cbn [set_client set_server m_servers]. unfold m_sock, placed0. cbn [pl_machine machine0 m_socks get pl_server]. unfold put. destruct (Nat.eqb_spec j 0); [split; intros _ X; discriminate|tauto]. }
  split; [|split].
  - apply (proj1 (server_stays _ _ _ _ _ (pruns_of _ _ _ L2) W1 S1)).
  - refine (proj1 (client_stays _ _ _ 0 a (pruns_of _ _ _ L2) _ _)); [rewrite A; discriminate|]. cbn [map] in L1. destruct (calm_cons _ _ _ _ _ L1) as (x & Cx & Mx & Rx). inversion Mx as [m0 dir0 s3 Dx]; subst.
    refine (proj1 (client_stays _ _ _ 0 a (pruns_of _ _ _ Rx) _ _)); [cbn [settle pl_machine]; inversion Dx; subst; cbn [set_client m_clients]; rewrite put_same; discriminate|cbn [settle pl_client]; apply put_same].
  - cbn [map] in L2. destruct (calm_cons _ _ _ _ _ L2) as (x & Cx & Mx & Rx). inversion Mx as [m0 dir0 s3 Dx]; subst. apply (proj1 (client_stays _ _ _ _ _ (pruns_of _ _ _ Rx) ltac:(cbn [settle pl_machine]; inversion Dx; subst; cbn [set_client m_clients]; rewrite put_same; discriminate) ltac:(cbn [settle pl_client]; apply put_same))).
Qed.
(** Two clients of one session, started in two directories, nothing else: a relative FILE of the second is looked up below the directory
    of the first.  If there is such a file, that one is opened; if there is none, the editor panics, and both clients lose it; the
    file of that name where the second command was given, which may exist, is of no effect. *)
Theorem C85_shared_refuted : forall n a b, directory a -> exists s, calm_run placed0 (starts 0 n 0 a ++ joins 1 n 1 b) s /\ on_server s 0 0 /\ on_server s 1 0 /\ client_in s 0 a /\ client_in s 1 b /\
  forall G pol k d id name, editor_of G pol s 0 k -> relative name -> name <> b_debug -> ~ open k name ->
    (forall r k' x, run_call G pol d (CEdit id name false) k = Ok (r, k') -> dk_read d (seen_from a name) = Some x -> text_in k' name (closed x)) /\
    (dk_read d (seen_from a name) = None -> exists w, run_call G pol d (CEdit id name false) k = Panic w).
Proof.
  intros n a b Da. destruct (shared_runs n a b) as (s & R & A & B & Sv & C0 & Cl). exists s. split; [exact R|]. split; [exact A|]. split; [exact B|]. split.
  - exact C0.
  - split; [exact Cl|]. intros G pol k d id name Ed Re Nd No. split.
    + intros r k' x E Rd. eapply (opened_in s 0 a Sv Da); eauto. unfold looked_up. unfold relative in Re. apply Nat.eqb_neq in Re. now rewrite Re.
    + intro Rd. exists "called Result::unwrap on Err"%string. cbn [run_call]. unfold edit_cmd, buffer_exists. destruct (has (k_buffers k) name) eqn:Q; [exfalso; apply No; unfold open; now apply has_in|].
      unfold open_file, new_file. rewrite (editor_cwd _ _ _ _ _ _ Ed Sv), (seen_join _ _ Da Re), Rd. reflexivity.
Qed.
Print Assumptions C85_shared_refuted.

(** ** examples *)
(** the hypotheses of C85_starter_partial: the only client of a session *)
Example C85_starter_met : exists s, calm_run placed0 [] placed0 /\ m_sock (pl_machine placed0) (str "w") = None /\ calm_run placed0 ((Start 0 (str "w") 0, str "/home/a") :: map (fun m => (m, str "/home/a")) [Server 0; Server 0; Server 0; Client 0; Client 0; Join 0]) s /\
  on_server s 0 0 /\ directory (str "/home/a").
Proof.
  destruct (first_run machine0 0 (str "w") 0) as (M1 & R1 & A & _); try reflexivity. destruct (lifted (str "/home/a") placed0 _ _ _ R1) as (s & L & <-).
  { cbn [calmly placed0 pl_machine]. split; intros x y p X; discriminate. } { repeat (apply Forall_cons; [exact Logic.I|]). apply Forall_nil. }
  exists s. split; [constructor|]. split; [reflexivity|]. split; [exact L|]. split; [exists (str "w"); exact A|]. split; [exists (str "home/a"); reflexivity|vm_compute; discriminate].
Qed.
(** A session that was started in /home/a; the second client says f in /home/b.  With a file f in both, it gets the one of /home/a; with one
    in /home/b only, the editor panics. *)
Definition disk_with (l : list (text * text)) : disk := mkDisk (fun f => get l f) (fun f => match get l f with Some _ => Some 3 | None => None end) 9.
Definition second_asks (l : list (text * text)) : res core :=
  k <- editor_init utf8_graphemes (str "/home/a") (str "ced") ;; run_calls utf8_graphemes pol_wrap (disk_with l) [CJoin 1; CJoin 2; CEdit 2 (str "f") false] k.
Example C85_shared_demo : read_text (second_asks [(str "/home/a/f", str "of a" ++ [LF]); (str "/home/b/f", str "of b" ++ [LF])]) = Some (str "of a" ++ [LF]) /\
  second_asks [(str "/home/b/f", str "of b" ++ [LF])] = Panic "called Result::unwrap on Err".
Proof. split; vm_compute; reflexivity. Qed.
