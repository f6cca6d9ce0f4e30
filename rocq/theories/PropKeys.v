(** C40: key notation. *)
From Coq Require Import String List Arith Lia Bool.
From Verif Require Import Base ListFacts Maps PieceTable PieceTableFacts Utf8 Utf8Spec Utf8Facts Chars Json Proto Keys.
Import ListNotations.

(** ** specification *)
(** a [Key::Char] holds a character *)
Definition wf_key (k : key) : Prop := match k with KChar c => is_char c | _ => True end.
(** the keys that have a notation that is read back *)
Definition notable (k : key) : Prop := match k with KChar c => ascii_upper c = false | KEscape => True | _ => False end.
(** the same key, not shifted *)
Definition unshifted (k : key) : key := match k with KChar c => KChar (ascii_lower c) | _ => k end.

(** ** proofs *)
Lemma lower_char c : is_char c -> is_char (ascii_lower c).
Proof. destruct c as [|a [|]]; auto. cbn [ascii_lower is_char]. unfold between. destruct ((65 <=? a) && (a <=? 90)) eqn:E; auto. cbn [is_char]. apply andb_prop in E. rewrite !Nat.leb_le in E. lia. Qed.
Lemma lower_id c : ascii_upper c = false -> ascii_lower c = c.
Proof. destruct c as [|a [|]]; auto. cbn. now intros ->. Qed.
Lemma lower_upper c : ascii_upper (ascii_lower c) = false.
Proof.
  destruct c as [|a [|]]; auto. cbn [ascii_lower]. destruct (between 65 90 a) eqn:E; cbn [ascii_upper]; auto. unfold between in *. apply andb_prop in E. rewrite !Nat.leb_le in E.
  apply andb_false_intro2. apply Nat.leb_gt. lia.
Qed.
(** the characters of a key's name *)
Definition name_chars (k : key) : list text := match k with KChar c => [ascii_lower c] | _ => map (fun b => [b]) (key_str k) end.
Lemma name_ok k : wf_key k -> Forall is_char (name_chars k) /\ concat (name_chars k) = key_str k.
Proof.
  destruct k; intro W; try (split; [vm_compute; repeat constructor; lia|reflexivity]). cbn [name_chars]. split; [constructor; [now apply lower_char|constructor]|]. cbn. apply app_nil_r.
Qed.
Definition mods (e : key_event) : list text :=
  (if ke_ctrl e then [[99]; [45]] else []) ++ (if ke_alt e then [[97]; [45]] else []) ++ (if ke_shift e then [[115]; [45]] else []).
Lemma mods_ok e : Forall is_char (mods e).
Proof. unfold mods. destruct e as [[] [] [] k]; cbn; repeat constructor; lia. Qed.
Lemma event_chars e : wf_key (ke_key e) -> event_str e = concat (mods e ++ name_chars (ke_key e)) /\ chars (event_str e) = mods e ++ name_chars (ke_key e).
Proof.
  intro W. destruct (name_ok _ W) as [F E]. assert (event_str e = concat (mods e ++ name_chars (ke_key e))) as S.
  { rewrite concat_app, E. unfold event_str, mods. rewrite !concat_app, <- !app_assoc. destruct (ke_ctrl e), (ke_alt e), (ke_shift e); reflexivity. }
  split; auto. rewrite S. apply chars_concat. apply Forall_app. split; auto using mods_ok.
Qed.
Lemma no_prefix k p : wf_key k -> starts_with [p; 45] (key_str k) = false.
Proof.
  destruct k as [c| | | | | | |]; intro W; cycle 1; try (match goal with |- starts_with _ ?x = _ => let y := eval vm_compute in x in change x with y end; cbn [starts_with]; match goal with |- (?b && _) = _ => destruct b; reflexivity end).
  cbn [key_str wf_key] in *. apply lower_char in W. destruct (ascii_lower c) as [|a [|b r]]; cbn [starts_with]; auto; [apply andb_false_r|].
  replace (45 =? b) with false; [now rewrite andb_false_r|]. symmetry. apply Nat.eqb_neq. intros <-. destruct r as [|d [|e [|]]]; cbn in W; unfold trail in *; intuition lia.
Qed.
Lemma modifiers_read e : wf_key (ke_key e) -> event_of_str (event_str e) =
  (k <- unwrap (parse_key (key_str (ke_key e))) "extract key value" ;; Ok (mkKey (ke_ctrl e) (ke_alt e) (ke_shift e) k)).
Proof.
  intro W. destruct (event_chars e W) as [_ C]. unfold event_of_str. rewrite C. destruct (name_ok _ W) as [_ N].
  pose proof (no_prefix (ke_key e) 99 W) as P1. pose proof (no_prefix (ke_key e) 97 W) as P2. pose proof (no_prefix (ke_key e) 115 W) as P3.
  destruct e as [ct al sh k]. unfold event_str, mods in *. cbn [ke_ctrl ke_alt ke_shift ke_key] in *. set (n := key_str k) in *. clearbody n.
  set (s3 := (if sh then str "s-" else []) ++ n). set (s2 := (if al then str "a-" else []) ++ s3).
  assert (starts_with (str "s-") s3 = sh /\ starts_with (str "a-") s3 = false /\ starts_with (str "c-") s3 = false) as (A1 & A2 & A3) by (unfold s3; destruct sh; repeat split; auto).
  assert (starts_with (str "a-") s2 = al /\ skipn (if al then 2 else 0) s2 = s3 /\ starts_with (str "c-") s2 = false) as (B1 & B2 & B3) by (unfold s2; destruct al; repeat split; auto).
  assert (starts_with (str "c-") ((if ct then str "c-" else []) ++ s2) = ct /\ skipn (if ct then 2 else 0) ((if ct then str "c-" else []) ++ s2) = s2) as (C1 & C2) by (destruct ct; split; auto).
  rewrite C1. cbn zeta. rewrite C2, B1.
  assert (skipn (if al then (if ct then 2 else 0) + 2 else if ct then 2 else 0) ((if ct then str "c-" else []) ++ s2) = s3) as -> by (rewrite <- B2, <- C2 at 1; destruct al, ct; reflexivity).
  rewrite A1. assert (concat (skipn (if sh then (if al then (if ct then 2 else 0) + 2 else if ct then 2 else 0) + 2 else if al then (if ct then 2 else 0) + 2 else if ct then 2 else 0)
    (((if ct then [[99]; [45]] else []) ++ (if al then [[97]; [45]] else []) ++ (if sh then [[115]; [45]] else [])) ++ name_chars k)) = n) as ->; [|reflexivity].
  rewrite <- N. destruct ct, al, sh; reflexivity.
Qed.
Lemma parse_key_str k : wf_key k -> parse_key (key_str k) = match k with KChar c => Some (KChar (ascii_lower c)) | KEscape => Some KEscape | _ => None end.
Proof.
  destruct k as [c| | | | | | |]; intro W; try reflexivity. unfold parse_key. cbn [key_str wf_key] in *. apply lower_char in W. 
  replace (chars (ascii_lower c)) with [ascii_lower c]; [reflexivity|]. symmetry. rewrite <- (app_nil_r (ascii_lower c)) at 1. apply (chars_concat [ascii_lower c]). now constructor.
Qed.

(** What reading back a notation gives, for every key event: exactly the escape key and the characters that are not
    ASCII capitals come back; capitals come back as small letters; every other named key panics. *)
Theorem C40_round_trip_partial : forall e, wf_key (ke_key e) -> (event_of_str (event_str e) = Ok e <-> notable (ke_key e)).
Proof.
  intros e W. rewrite modifiers_read, parse_key_str by exact W. destruct e as [ct al sh k]. cbn [ke_ctrl ke_alt ke_shift ke_key] in *.
  destruct k as [c| | | | | | |]; cbn [unwrap bind notable]; split; intro H; try discriminate; auto; try contradiction.
  - injection H as H. rewrite <- H. apply lower_upper.
  - now rewrite lower_id.
Qed.
Print Assumptions C40_round_trip_partial.
Theorem C40_refuted : forall ct al sh,
  (forall k, In k [KBackspace; KEnter; KUp; KDown; KLeft; KRight] -> exists why, event_of_str (event_str (mkKey ct al sh k)) = Panic why) /\
  (forall c, is_char c -> ascii_upper c = true -> event_of_str (event_str (mkKey ct al sh (KChar c))) = Ok (mkKey ct al sh (KChar (ascii_lower c))) /\ ascii_lower c <> c).
Proof.
  intros ct al sh. split.
  - intros k H. rewrite modifiers_read by (repeat (destruct H as [<-|H]; [exact Logic.I|]); destruct H). cbn [ke_key]. rewrite parse_key_str by (repeat (destruct H as [<-|H]; [exact Logic.I|]); destruct H).
    repeat (destruct H as [<-|H]; [eexists; reflexivity|]). destruct H.
  - intros c W U. rewrite modifiers_read, parse_key_str by exact W. split; [reflexivity|]. intro E. pose proof (lower_upper c) as L. rewrite E in L. congruence.
Qed.
Print Assumptions C40_refuted.

(** the notation tells all keys apart, up to the case of ASCII letters *)
Theorem C40_injective : forall e1 e2, wf_key (ke_key e1) -> wf_key (ke_key e2) -> event_str e1 = event_str e2 ->
  ke_ctrl e1 = ke_ctrl e2 /\ ke_alt e1 = ke_alt e2 /\ ke_shift e1 = ke_shift e2 /\ unshifted (ke_key e1) = unshifted (ke_key e2).
Proof.
  intros e1 e2 W1 W2 E. destruct (event_chars e1 W1) as [_ C1], (event_chars e2 W2) as [_ C2]. rewrite E in C1. rewrite C1 in C2. clear C1 E.
  destruct e1 as [a1 b1 c1 k1], e2 as [a2 b2 c2 k2]. unfold mods in C2. cbn [ke_ctrl ke_alt ke_shift ke_key] in *.
  assert (ascii_lower [45] = [45]) as D by reflexivity.
  destruct k1 as [x1| | | | | | |], k2 as [x2| | | | | | |]; cbn [name_chars key_str] in C2; change (map (fun b : nat => [b]) (str "bkspc")) with [[98];[107];[115];[112];[99]] in C2;
    change (map (fun b : nat => [b]) (str "ret")) with [[114];[101];[116]] in C2; change (map (fun b : nat => [b]) (str "esc")) with [[101];[115];[99]] in C2;
    change (map (fun b : nat => [b]) (str "up")) with [[117];[112]] in C2; change (map (fun b : nat => [b]) (str "down")) with [[100];[111];[119];[110]] in C2;
    change (map (fun b : nat => [b]) (str "left")) with [[108];[101];[102];[116]] in C2; change (map (fun b : nat => [b]) (str "right")) with [[114];[105];[103];[104];[116]] in C2;
    destruct a1, a2, b1, b2, c1, c2; cbn [app] in C2; try discriminate C2; try (injection C2 as C2); repeat split; cbn [unshifted]; congruence.
Qed.
Print Assumptions C40_injective.
(** typing a character: capitals are the shifted small letters, and come back *)
Theorem C40_typed : forall c, is_char c -> let e := event_of_char c in
  event_of_str (event_str e) = Ok e /\ ke_shift e = ascii_upper c /\ ke_key e = KChar (ascii_lower c).
Proof.
  intros c W e. split; [|auto]. apply C40_round_trip_partial; [cbn; now apply lower_char|]. cbn. apply lower_upper.
Qed.
Example C40_demo : event_of_str (str "c-s-a") = Ok (mkKey true false true (KChar [97])) /\ event_of_str (event_str (mkKey false true false (KChar [195; 169]))) = Ok (mkKey false true false (KChar [195; 169])) /\
  notable (KChar [45]) /\ wf_key (KChar [45]) /\ event_str (mkKey true true true (KChar [45])) = str "c-a-s--".
Proof. repeat split; cbn; lia. Qed.
