(** The tests that come with casimir/ced, on the model: every assertion of the unit tests of core/src/editor, core/src/stackmap.rs
    and remote/src, and of core/tests, checked by computation, in both profiles where arithmetic matters.  They are evidence that the
    model is the program's, not proofs of anything else.  Not transcribed: tests that open Cargo.toml or a socket are run on a disk
    with one file and without the socket; fuzzy.lua moves at random; the iterator of position.rs stops after one element. *)
From Coq Require Import String List Arith ZArith Bool.
From Verif Require Import Base Maps Utf8 Utf8Spec Fmt Chars PieceTable HistoryFacts Coords GraphemeInst Diff Selection StackMap Buffer View Json Proto Keys Names Session Normalize Menu Core PropCore PropMenu Editor EditorDemo Payload.
Import ListNotations.

Definition is_ok {A} (x : res A) (f : A -> bool) : bool := match x with Ok a => f a | _ => false end.
Notation G := utf8_graphemes.
Fixpoint same {A} (f : A -> A -> bool) (l m : list A) : bool := match l, m with [], [] => true | x :: l, y :: m => f x y && same f l m | _, _ => false end.
#[local] Instance texts_Eqb : Eqb (list text).
Proof.
  refine {| eqb := same list_nat_eqb |}. induction a as [|x a IH]; intros [|y b]; cbn; try (split; congruence).
  rewrite andb_true_iff, IH, (list_nat_eqb_ok x y). split; [intros [-> ->]; reflexivity|intros H; injection H; auto].
Defined.
Definition both (f : policy -> bool) : bool := f pol_wrap && f pol_debug.
Definition reads (t : pt) (x : string) : bool := is_ok (pt_text t) (fun y => eqb y (str x)).

(** ** core/src/editor/piece_table/mod.rs *)
(** mod.rs:664-681 [insert] *)
Definition foxes : res pt :=
  t <- pt_insert 0 (str "the fox jumps over the dog") pt_new ;;
  t <- pt_insert 4 (str "quick brown ") t ;;
  t <- pt_insert 35 (str "lazy ") t ;;
  t <- pt_append (str " 🐶") t ;;
  t <- pt_insert 0 (str "🦊 ") t ;;
  pt_insert 56 (str ", so quick") t.
Example test_insert : is_ok foxes (fun t => reads t "🦊 the quick brown fox jumps over the lazy dog 🐶, so quick") = true.
Proof. vm_compute. reflexivity. Qed.
(** mod.rs:684-707 [delete] *)
Definition foxes2 : res pt :=
  t <- pt_insert 0 (str "the fox jumps over the dog") pt_new ;;
  t <- pt_insert 3 (str " quick brown") t ;;
  t <- pt_insert 35 (str "lazy ") t ;;
  t <- pt_append (str " 🐶") t ;;
  t <- pt_insert 0 (str "🦊 ") t ;;
  pt_insert 56 (str ", so quick") t.
Definition piece_is (t : pt) (o n : nat) (x : string) : bool := is_ok (pt_range t o n) (fun y => match y with Some y => eqb y (str x) | None => false end).
Example test_delete : both (fun pol => is_ok foxes2 (fun t => piece_is t 9 12 "quick brown " &&
  is_ok (pt_delete pol 9 12 t) (fun t => piece_is t 28 5 "lazy " &&
  is_ok (pt_delete pol 28 5 t) (fun t => reads t "🦊 the fox jumps over the dog 🐶, so quick")))) = true.
Proof. vm_compute. reflexivity. Qed.
(** mod.rs:710-715 [delete_empty], 718-724 [delete_all] *)
Example test_delete_empty : both (fun pol => is_ok (pt_delete pol 9 12 pt_new) (fun t => reads t "")) = true.
Proof. vm_compute. reflexivity. Qed.
Example test_delete_all : both (fun pol => is_ok (t <- pt_append (str "the fox jumps over the dog") pt_new ;; pt_delete pol 0 26 t) (fun t => reads t "")) = true.
Proof. vm_compute. reflexivity. Qed.
(** mod.rs:727-745 [replace] *)
Example test_replace : both (fun pol => is_ok (t <- foxes ;; t <- pt_replace pol 9 11 (str "sneaky") t ;; pt_replace pol 35 8 (str "mighty bear") t)
  (fun t => reads t "🦊 the sneaky fox jumps over the mighty bear 🐶, so quick")) = true.
Proof. vm_compute. reflexivity. Qed.
(** mod.rs:748-762 [apply_diff] *)
Example test_apply_diff : both (fun pol => is_ok (t <- foxes ;; pt_apply_diff pol (str "🦊 the sneaky fox jumps over the mighty bear 🐶, so quick") t)
  (fun t => reads t "🦊 the sneaky fox jumps over the mighty bear 🐶, so quick")) = true.
Proof. vm_compute. reflexivity. Qed.
(** mod.rs:765-783 [consecutive] *)
Definition packed (t : pt) : pt := mkPT (t_orig t) (t_added t) (repack (t_pieces t)) (t_nl t) (t_last t) (t_undos t) (t_redos t).
Definition mind : res pt := t <- pt_append (str "Where is") pt_new ;; t <- pt_append (str " ") t ;; t <- pt_append (str "my mind") t ;; pt_append (str "?") t.
Example test_consecutive : is_ok mind (fun t => reads t "Where is my mind?" && (length (t_pieces t) =? 4) &&
  let t := packed t in reads t "Where is my mind?" && (length (t_pieces t) =? 1) &&
  is_ok (pt_insert 0 (str "Hey. ") t) (fun t => let t := packed t in reads t "Hey. Where is my mind?" && (length (t_pieces t) =? 2))) = true.
Proof. vm_compute. reflexivity. Qed.
(** mod.rs:786-830 [undo_redo] *)
Definition goes (x : bool * pt) (want : bool) (f : pt -> bool) : bool := Bool.eqb (fst x) want && f (snd x).
Example test_undo_redo : both (fun pol =>
  goes (pt_undo (pt_with_text (str "🦊 the quick brown fox jumps over the lazy dog 🐶, so quick"))) false (fun t =>
  is_ok (pt_delete pol 53 10 t) (fun t => reads t "🦊 the quick brown fox jumps over the lazy dog 🐶" &&
  goes (pt_undo t) true (fun t => goes (pt_undo t) false (fun t => reads t "🦊 the quick brown fox jumps over the lazy dog 🐶, so quick" &&
  goes (pt_redo t) true (fun t => goes (pt_redo t) false (fun t => reads t "🦊 the quick brown fox jumps over the lazy dog 🐶" &&
  is_ok (t <- pt_append (str ", so fast") t ;; pt_insert 9 (str "really ") t) (fun t => reads t "🦊 the really quick brown fox jumps over the lazy dog 🐶, so fast" &&
  is_ok (pt_delete pol 0 5 t) (fun t => reads t "the really quick brown fox jumps over the lazy dog 🐶, so fast" &&
  goes (pt_undo t) true (fun t => reads t "🦊 the really quick brown fox jumps over the lazy dog 🐶, so fast" &&
  goes (pt_undo t) true (fun t => reads t "🦊 the quick brown fox jumps over the lazy dog 🐶" &&
  goes (pt_redo t) true (fun t => goes (pt_redo t) true (fun t => reads t "the really quick brown fox jumps over the lazy dog 🐶, so fast" &&
  is_ok (pt_apply_diff pol (str "nothing to see here") t) (fun t => reads t "nothing to see here" &&
  goes (pt_undo t) true (fun t => reads t "the really quick brown fox jumps over the lazy dog 🐶, so fast" &&
  goes (pt_redo t) true (fun t => reads t "nothing to see here")))))))))))))))) = true.
Proof. vm_compute. reflexivity. Qed.
(** mod.rs:833-856 [newline_caching] *)
Definition nl_is (t : pt) (l : list nat) : bool := eqb (t_nl t) l.
Example test_newline_caching : both (fun pol => nl_is pt_new [] &&
  is_ok (pt_append (str "first line
second line
the end") pt_new) (fun t => nl_is t [10; 22] &&
  is_ok (pt_insert 11 (str "surprise line
") t) (fun t => nl_is t [10; 24; 36] &&
  is_ok (pt_replace pol 11 8 (str "another") t) (fun t => nl_is t [10; 23; 35] &&
  is_ok (pt_delete pol 11 24 t) (fun t => nl_is t [10; 11]))))) = true.
Proof. vm_compute. reflexivity. Qed.
(** mod.rs:859-867 [line_length], 870-879 [line] *)
Definition three : pt := pt_with_text (str "first line
second line
the end").
Example test_line_length : is_ok (a <- pt_line_length three 1 ;; b <- pt_line_length three 2 ;; c <- pt_line_length three 3 ;; d <- pt_line_length three 4 ;; l <- pt_longest_line three ;; Ok (a, b, c, d, l))
  (fun '(a, b, c, d, (i, n)) => (a =? 10) && (b =? 11) && (c =? 7) && (d =? 0) && (i =? 2) && (n =? 11)) = true.
Proof. vm_compute. reflexivity. Qed.
Definition line_is (t : pt) (n : nat) (x : option string) : bool :=
  is_ok (pt_line_bytes t n) (fun y => match y, x with Some y, Some x => eqb y (str x) | None, None => true | _, _ => false end).
Definition mystery : pt := pt_with_text (str "What does the 🦊 says?
❓ It's a mystery.
A real mystery.").
Example test_line : line_is mystery 0 None && line_is mystery 1 (Some "What does the 🦊 says?"%string) && line_is mystery 2 (Some "❓ It's a mystery."%string) &&
  line_is mystery 3 (Some "A real mystery."%string) && line_is mystery 10 None = true.
Proof. vm_compute. reflexivity. Qed.
(** mod.rs:882-950 [coordinates] *)
Definition poem : pt := pt_with_text (str "Vous qui venez ici
dans une humble posture

De vos flancs alourdis
décharger le fardeau

Veuillez quand vous aurez
Soulagé la nature

Et déposé dans l'urne
un modeste cadeau

Epancher dans l'amphore
un courant d'onde pure

Et sur l'autel fumant
placer pour chapiteau

Le couvercle arrondi
dont l'auguste jointure

Aux parfums indiscrets
doit servir de tombeau").
Definition lines_are (t : pt) (a b : coords) (l : list string) : bool := is_ok (pt_lines_range G t a b) (fun y => eqb y (map str l)).
Definition offset_is (t : pt) (c : coords) (o : option nat) : bool :=
  is_ok (pt_coord_to_offset G t c) (fun y => match y, o with Some y, Some o => y =? o | None, None => true | _, _ => false end).
Definition back (t : pt) (c : coords) : bool :=
  is_ok (o <- pt_coord_to_offset G t c ;; o <- unwrap o "none" ;; pt_offset_to_coord G t o) (fun y => match y with Some d => coords_eqb d c | None => false end).
Example test_coordinates :
  lines_are poem (mkC 1 6) (mkC 1 15) ["qui venez"%string] && lines_are poem (mkC 1 1) (mkC 2 1) ["Vous qui venez ici"%string] &&
  lines_are poem (mkC 4 1) (mkC 6 1) ["De vos flancs alourdis"; "décharger le fardeau"]%string && lines_are poem (mkC 7 10) (mkC 8 8) ["quand vous aurez"; "Soulagé"]%string &&
  back poem (mkC 4 15) && back poem (mkC 5 5) && offset_is poem (mkC 3 999) None && offset_is poem (mkC 999 999) None = true.
Proof. vm_compute. reflexivity. Qed.
(** mod.rs:953-957 [coordinates_one_line], 960-968 [coordinates_unicode] *)
Example test_coordinates_one_line : let t := pt_with_text (str "What does the fox says?") in offset_is t (mkC 1 5) (Some 4) && offset_is t (mkC 1 15) (Some 14) = true.
Proof. vm_compute. reflexivity. Qed.
Example test_coordinates_unicode : let t := pt_with_text (str "What does the 🦊 says?
❓ It's a mystery.") in
  offset_is t (mkC 1 5) (Some 4) && offset_is t (mkC 1 15) (Some 14) && offset_is t (mkC 1 16) (Some 18) && offset_is t (mkC 2 3) (Some 29) && offset_is t (mkC 3 14) None = true.
Proof. vm_compute. reflexivity. Qed.
(** mod.rs:971-990 [char_at] *)
Definition natoque : pt := pt_with_text (str "Natoque.
Ullamcorper ultrices 💘🐬🌜👤🎑🍶🔃 eget accumsan ipsum nunc est eget 🔔🏇💡🔈👝🐚👓🔯🎦👯🍭 🍪🐯🍵 feugiat eget enim, 💉🎽🐂🎂 mauris nisi, non at 🔬👨🔀 odio.
Volutpat massa, et sit aliquam vestibulum, eu nisl rhoncus, commodo, at ac tempor, neque, congue aliquam quam nulla sit nisl sed.
Dolor.").
Definition char_is (t : pt) (c : coords) (x : option string) : bool :=
  is_ok (pt_char_at G t c) (fun y => match y, x with Some y, Some x => eqb y (str x) | None, None => true | _, _ => false end).
Example test_char_at :
  char_is natoque (mkC 1 3) (Some "t"%string) && char_is natoque (mkC 2 20) (Some "s"%string) && char_is natoque (mkC 2 22) (Some "💘"%string) && char_is natoque (mkC 2 24) (Some "🌜"%string) &&
  char_is natoque (mkC 3 20) (Some "s"%string) && char_is natoque (mkC 4 2) (Some "o"%string) && char_is natoque (mkC 1 999) None && char_is natoque (mkC 4 999) None && char_is natoque (mkC 5 1) None = true.
Proof. vm_compute. reflexivity. Qed.

(** ** core/src/editor/piece_table/navigator.rs *)
Definition nam : pt := pt_with_text (str "Nam quis nulla.
Integer malesuada. In in enim a arcu imperdiet malesuada.
Sed vel lectus. Donec odio").
Definition at_ (n : nav) (l c : nat) : bool := coords_eqb (n_cur n) (mkC l c) && is_ok (nav_pos G nam n) (fun p => coords_eqb (pos_coords p) (mkC l c)).
Definition nv (c : option coords) : res nav := n <- pt_navigate G nam c ;; unwrap n "none".
Notation nxt := (nav_next G nam). Notation prv := (nav_previous nam).
Example test_nav_char :
  is_ok (nv None) (fun n => is_ok (nxt n) (fun n => at_ n 1 2 && is_ok (n <- prv n ;; prv n) (fun n => at_ n 1 1 && is_ok (prv n) (fun n => at_ n 1 1)))) &&
  is_ok (nv (Some (mkC 3 26))) (fun n => is_ok (nxt n) (fun n => at_ n 3 26)) &&
  is_ok (nv (Some (mkC 2 1))) (fun n => is_ok (prv n) (fun n => at_ n 1 16 && is_ok (nxt n) (fun n => at_ n 2 1))) = true.
Proof. vm_compute. reflexivity. Qed.
Example test_nav_line :
  is_ok (nv None) (fun n => is_ok (nav_next_line nam n) (fun n => at_ n 2 1 && is_ok (nav_next_line nam n) (fun n => at_ n 3 1 && is_ok (nav_next_line nam n) (fun n => at_ n 3 1 &&
  is_ok (n <- nav_previous_line nam n ;; nav_previous_line nam n) (fun n => at_ n 1 1 && is_ok (nav_previous_line nam n) (fun n => at_ n 1 1)))))) = true.
Proof. vm_compute. reflexivity. Qed.
Example test_nav_whole :
  is_ok (nv None) (fun n => is_ok (nav_end G nam n) (fun n => at_ n 3 26 && is_ok (nav_is_at_end G nam n) (fun b => b) && is_ok (nav_begin nam n) (fun n => at_ n 1 1))) = true.
Proof. vm_compute. reflexivity. Qed.

(** ** core/src/editor/diff.rs *)
Definition lcs_is (a b c : string) : bool := is_ok (find_lcs (str a) (str b)) (fun y => eqb y (str c)).
Example test_lcs : lcs_is "toto" "toto" "toto" && lcs_is "toto" "titola" "tto" && lcs_is "toto" "tata" "tt" &&
  lcs_is "the quick brown fox jumps over the lazy dog" "the sneaky fox jumps over the migthy bear" "the k fox jumps over the y " = true.
Proof. vm_compute. reflexivity. Qed.
Fixpoint rebuilt (l r : text) (lo ro : nat) (ds : list change) : text :=
  match ds with
  | [] => l
  | CLeft n :: ds => rebuilt (firstn lo l ++ skipn (lo + n) l) r lo ro ds
  | CRight n :: ds => rebuilt (firstn lo l ++ slice r ro n ++ skipn lo l) r (lo + n) (ro + n) ds
  | CBoth n :: ds => rebuilt l r (lo + n) (ro + n) ds
  end.
Definition sizes (f : change -> nat) (ds : list change) : nat := list_sum (map f ds).
Definition close_l := str "🦊 the quick brown fox jumps over the lazy dog 🐶, so quick".
Definition close_r := str "🦊 the sneaky fox jumps over the mighty bear 🐶, so quick".
Example test_close_diff : is_ok (diff close_l close_r) (fun ds => eqb (rebuilt close_l close_r 0 0 ds) close_r &&
  (sizes (fun c => match c with CLeft n | CBoth n => n | _ => 0 end) ds =? length close_l) && (sizes (fun c => match c with CRight n | CBoth n => n | _ => 0 end) ds =? length close_r)) = true.
Proof. vm_compute. reflexivity. Qed.
Definition far_l := str "the really quick brown fox jumps over the lazy dog 🐶, so fast".
Definition far_r := str "nothing to see here".
Example test_far_diff : is_ok (diff far_l far_r) (fun ds => eqb (rebuilt far_l far_r 0 0 ds) far_r) = true.
Proof. vm_compute. reflexivity. Qed.

(** ** core/src/editor/view.rs *)
Example test_key : view_key [] = str "" /\
  view_key (add_lens (mkLens (str "buffer2") FWhole) (add_lens (mkLens (str "buffer1") (FRange 10 12)) [])) = str "buffer1{10..12}|buffer2{*}" /\
  view_key (add_lens (mkLens (str "buffer2") FWhole) (add_lens (mkLens (str "buffer1") (FRange 20 51)) (add_lens (mkLens (str "buffer1") (FRange 10 12)) []))) = str "buffer1{10..12,20..51}|buffer2{*}".
Proof. vm_compute. repeat split. Qed.

(** ** core/src/editor/menu.rs *)
Definition the_item (x : string) : item := mkItem (str x) (str x) None AOpen.
Definition ordered (items want : list string) : bool := is_ok (filter_items ascii_crate (str "proj fil ext") (map the_item items)) (fun l => eqb (map (fun c => it_label (ca_item c)) l) (map str want)).
Local Open Scope string_scope.
Example test_match_path : ordered ["/abs/path/here"; "/tmp"; "/project/module/file.ext"; "/project/modula/file.ext"; "/project/submodule/file.ext"; "/project/file.ext"; "/project/file"; "/project/amodule/file.ext"; "/proj/file/ext/other.ext"]
  ["/project/file.ext"; "/proj/file/ext/other.ext"; "/project/modula/file.ext"; "/project/module/file.ext"; "/project/amodule/file.ext"; "/project/submodule/file.ext"; "/abs/path/here"; "/project/file"; "/tmp"] = true.
Proof. vm_compute. reflexivity. Qed.
Example test_multiple_searches :
  (ordered ["/abs/path/here"; "/project/module/file.ext"; "/project/submodule/file.ext"; "/project/file"; "/proj/file/ext/other.ext"]
    ["/proj/file/ext/other.ext"; "/project/module/file.ext"; "/project/submodule/file.ext"; "/abs/path/here"; "/project/file"] &&
  ordered ["/tmp"; "/project/modula/file.ext"; "/project/file.ext"; "/project/amodule/file.ext"] ["/project/file.ext"; "/project/modula/file.ext"; "/project/amodule/file.ext"; "/tmp"])%bool = true.
Proof. vm_compute. reflexivity. Qed.
Example test_tokenize : exists a b, filter_items ascii_crate (str "proj src ext") (map the_item ["/project/src/file.ext"; "project/no/match/file.ext"]) = Ok [a; b] /\
  tokenize a = Ok [mkTok (str "/") false; mkTok (str "proj") true; mkTok (str "ect/") false; mkTok (str "src") true; mkTok (str "/file.") false; mkTok (str "ext") true] /\
  tokenize b = Ok [mkTok (str "project/no/match/file.ext") false].
Proof. vm_compute. eexists. eexists. repeat split. Qed.

(** ** core/src/editor/core.rs, buffer.rs *)
Example test_error_message_normalization : normalize_error_message (str "just a simple message") = str "just a simple message" /\
  normalize_error_message (str "a complicated message
" ++ [9] ++ str "with lines
" ++ [9; 9] ++ str "and lines") = str "a complicated message\n with lines\n and lines".
Proof. vm_compute. split; reflexivity. Qed.
Definition path_of (l : list string) : rpath := rev (map str l).
Definition the_sources : list Names.source := [Names.SScratch (str "*buffer*"); Names.SFile (path_of ["some"; "file.ext"]); Names.SFile (path_of ["some"; "where"; "file.where"]);
  Names.SFile (path_of ["any"; "where"; "file.where"]); Names.SFile (path_of ["any"; "where"; "here"; "file.where"])].
Example test_shortest_name : map (find_shortest_name the_sources) [0; 1; 2; 3; 4] = map (fun x => Ok (str x)) ["*buffer*"; "file.ext"; "some/where/file.where"; "any/where/file.where"; "here/file.where"].
Proof. vm_compute. reflexivity. Qed.

(** ** core/src/stackmap.rs *)
Definition sm_add (k : nat) (x : string) (m : smap nat text) : res (smap nat text) := '(_, m) <- sm_insert k (str x) m ;; Ok m.
Definition latest_is (m : smap nat text) (k : nat) : bool := match sm_latest m with Some j => (j =? k)%nat | None => false end.
Example test_lifecycle : let m := sm_new (K := nat) (V := text) in sm_latest m = None /\ sm_latest_value m = None /\ fst (sm_set_last 1 m) = false /\
  is_ok (sm_add 1 "1" m) (fun m => (latest_is m 1 && match sm_latest_value m with Some x => eqb x (str "1") | None => false end &&
  is_ok (m <- sm_add 2 "2" m ;; sm_add 3 "3" m) (fun m => latest_is m 3 && fst (sm_set_last 2 m) && let m := snd (sm_set_last 2 m) in latest_is m 2 && latest_is (snd (sm_remove 2 m)) 3))%bool) = true.
Proof. vm_compute. repeat split. Qed.

(** ** remote/src/jsonrpc.rs *)
Definition q (x : string) : text := map (fun b => if (b =? 39)%nat then 34 else b) (str x).
Definition items12 : option json := Some (JArr [JStr (str "item 1"); JStr (str "item 2")]).
Example test_request : parse_request (q "{
                    'jsonrpc': '2.0',
                    'id': 100,
                    'method': 'func1',
                    'params': ['item 1', 'item 2']
                  }") = Some (mkReq (str "2.0") (IdNum 100) (str "func1") items12).
Proof. vm_compute. reflexivity. Qed.
Example test_notification : parse_event (q "{
                    'jsonrpc': '2.0',
                    'method': 'func1',
                    'params': ['item 1', 'item 2']
                  }") = Some (EvNotification (mkNot (str "2.0") (str "func1") items12)) /\
  parse_event (q "{
                    'jsonrpc': '2.0',
                    'method': 'func1'
                  }") = Some (EvNotification (mkNot (str "2.0") (str "func1") None)).
Proof. vm_compute. split; reflexivity. Qed.
Example test_response : exists r, parse_event (q "{
                    'jsonrpc': '2.0',
                    'id': 100,
                    'result': ['item 1', 'item 2']
                  }") = Some (EvResponse r) /\ rp_id r = IdNum 100 /\ response_result r = Ok (inl (JArr [JStr (str "item 1"); JStr (str "item 2")])).
Proof. vm_compute. eexists. repeat split. Qed.
Example test_response_error : exists r, parse_event (q "{
                    'jsonrpc': '2.0',
                    'id': 100,
                    'error': {'code': -32601, 'message': 'Method not found', 'data': 'more details'}
                  }") = Some (EvResponse r) /\ rp_id r = IdNum 100 /\ response_result r = Ok (inr (mkErr (-32601) (str "Method not found") (Some (JStr (str "more details"))))).
Proof. vm_compute. eexists. repeat split. Qed.

(** ** remote/src/keys.rs *)
Definition the_key (c a s : bool) (x : string) : key_event := mkKey c a s (KChar (str x)).
Example test_convert : event_of_str (str "a") = Ok (the_key false false false "a") /\ event_of_str (str "c-a") = Ok (the_key true false false "a") /\
  event_of_str (str "c-s-a") = Ok (the_key true false true "a") /\ event_of_char (str "c") = the_key false false false "c" /\
  event_of_str (event_str (the_key false true false "é")) = Ok (the_key false true false "é") /\ event_of_str (event_str (the_key true true false ",")) = Ok (the_key true true false ",").
Proof. vm_compute. repeat split. Qed.

(** ** remote/src/session.rs *)
Definition ascii_classes : classes := {| u_word := fun _ => false; u_digit := fun _ => false |}.
Example test_connection_parse : parse_mode ascii_classes (str "/tmp/foo") = Ok (Socket (str "/tmp/foo")) /\ parse_mode ascii_classes (str "@bar") = Ok (Socket (str "@bar")) /\
  parse_mode ascii_classes (str "@:8888") = Ok (Tcp {| octets := [127; 0; 0; 1]; port := 4000 + 4000 + 888 |}) /\
  parse_mode ascii_classes (str "@1.2.3.4:8888") = Ok (Tcp {| octets := [1; 2; 3; 4]; port := 4000 + 4000 + 888 |}).
Proof. vm_compute. repeat split. Qed.
Example test_connection_display : show_mode (Socket (str "/tmp/foo")) = Ok (str "foo") /\ show_mode (Socket (str "@bar")) = Ok (str "@bar") /\ show_mode (Socket (str "🍺 → 😃")) = Ok (str "🍺 → 😃") /\
  show_mode (Tcp {| octets := [127; 0; 0; 1]; port := 4000 + 4000 + 888 |}) = Ok (str "@127.0.0.1:8888").
Proof. vm_compute. repeat split. Qed.

(** ** core/tests/scripts: the first buffer "testing" of client 1; a step is a call and the text selected after it *)
Definition selects (k : core) (x : string) : bool :=
  is_ok (get_context G 1 k) (fun r => match get (snd r) (str "testing") with Some (d :: _) => eqb (sd_text d) (str x) | _ => false end).
Fixpoint script_ok (pol : policy) (steps : list (call * option string)) (k : core) : bool :=
  match steps with
  | [] => true
  | (c, x) :: r => is_ok (run_call G pol no_disk c k) (fun '(_, k) => (match x with Some x => selects k x | None => true end && script_ok pol r k)%bool)
  end.
Definition script (content : string) (steps : list (call * option string)) : bool :=
  both (fun pol => is_ok (editor_init G (str "/w") (str "ced")) (fun k => script_ok pol ((CJoin 1, None) :: (CScratch 1 (str "testing") (str content), None) :: steps) k)).
Definition mv (d : motion) (x : string) : call * option string := (CMove 1 d false, Some x).
Definition ex (d : motion) (x : string) : call * option string := (CMove 1 d true, Some x).
Definition here (x : string) : call * option string := (CGetContext 1, Some x).
Definition del_ (x : string) : call * option string := (CDeleteSelection 1, Some x).
Definition nl : string := "
".
Definition t12 : string := "123
456".
Definition alpha : string := "abcdefghijklmnopqrstuvwxyz
1234567890

ABCDEFGHIJKLMNOPQRSTUVWXYZ".
Example lua_movement_document : script t12 [mv MBegin "1"; mv MBegin "1"; mv MEnd "6"; mv MEnd "6"] = true.
Proof. vm_compute. reflexivity. Qed.
Example lua_movement_empty_buffer : script "" [(CMove 1 MDown false, None)] = true.
Proof. vm_compute. reflexivity. Qed.
Example lua_movement_horizontal : script t12 [here "1"; mv MRight "2"; mv MRight "3"; mv MRight nl; mv MRight "4"; mv MRight "5"; mv MRight "6"; mv MRight "6";
  mv MLeft "5"; mv MLeft "4"; mv MLeft nl; mv MLeft "3"; mv MLeft "2"; mv MLeft "1"; mv MLeft "1"] = true.
Proof. vm_compute. reflexivity. Qed.
Example lua_movement_line : script "123" [mv MLineBegin "1"; mv MLineBegin "1"; mv MLineEnd "3"; mv MLineEnd "3"] = true.
Proof. vm_compute. reflexivity. Qed.
Example lua_movement_vertical : script alpha [here "a"; mv MDown "1"; mv MDown nl; mv MDown "A"; mv MDown "A"; mv MUp nl; mv MUp "1"; mv MUp "a"; mv MUp "a"] = true.
Proof. vm_compute. reflexivity. Qed.
Example lua_column_clamp : script alpha (repeat (CMove 1 MRight false, None) 12 ++ [here "m"; mv MDown nl; mv MDown nl; mv MDown "M"; mv MLeft "L"; mv MUp nl; mv MUp nl; mv MUp "l"])%list = true.
Proof. vm_compute. reflexivity. Qed.
Example lua_selection_document : script t12 [here "1"; ex MEnd t12; mv MEnd "6"; ex MBegin t12; mv MBegin "1"] = true.
Proof. vm_compute. reflexivity. Qed.
Example lua_selection_horizontal : script "123" [here "1"; ex MRight "12"; mv MRight "3"; ex MLeft "23"; mv MLeft "1"] = true.
Proof. vm_compute. reflexivity. Qed.
Example lua_selection_line : script "123" [here "1"; ex MLineEnd "123"; mv MLineEnd "3"; ex MLineBegin "123"; mv MLineBegin "1"] = true.
Proof. vm_compute. reflexivity. Qed.
Example lua_selection_vertical : script t12 [here "1"; ex MDown "123
4"; mv MDown "4"; ex MUp "123
4"; mv MUp "1"] = true.
Proof. vm_compute. reflexivity. Qed.
Example lua_selection_vertical_twice : script "123
456
789" [here "1"; ex MDown "123
4"; ex MDown "123
456
7"] = true.
Proof. vm_compute. reflexivity. Qed.
Example lua_edition_delete : script t12 [del_ "2"; (CMove 1 MRight false, None); del_ nl; del_ "4"; (CMove 1 MBegin false, None); ex MEnd "2456"; del_ nl; (CDeleteSelection 1, None)] = true.
Proof. vm_compute. reflexivity. Qed.

(** ** core/tests/view_operations_test.rs, connect_test.rs: what client 1 was last shown *)
Definition cargo : disk := mkDisk (fun p => if eqb p (str "/w/Cargo.toml") then Some (str "[package]
") else None) (fun _ => Some 1) 0.
Fixpoint calls (pol : policy) (cs : list call) (k : core) : res core :=
  match cs with [] => Ok k | c :: r => '(_, k) <- run_call G pol cargo c k ;; calls pol r k end.
Definition last_shown (k : core) : list text :=
  fold_left (fun d m => match m_what m with NView v => map pi_buffer v | _ => d end) (k_sent k) [].
Definition shows (cs : list call) (want : list string) : bool :=
  both (fun pol => is_ok (k <- editor_init G (str "/w") (str "ced") ;; calls pol (CJoin 1 :: cs) k) (fun k => eqb (last_shown k) (map str want))).
Definition oh := CEdit 1 (str "oh hi!") true.
Definition toml := CEdit 1 (str "Cargo.toml") false.
Example test_starting_notifications : shows [] ["*debug*"; "*scratch*"] = true.
Proof. vm_compute. reflexivity. Qed.
Example test_add_and_remove : (shows [oh; toml; CViewAdd 1 (str "oh hi!")] ["Cargo.toml"; "oh hi!"] && shows [oh; toml; CViewAdd 1 (str "oh hi!"); CViewRemove 1 (str "Cargo.toml")] ["oh hi!"])%bool = true.
Proof. vm_compute. reflexivity. Qed.
Example test_view_delete : (shows [oh; toml] ["Cargo.toml"] && shows [oh; toml; CViewDelete 1] ["oh hi!"])%bool = true.
Proof. vm_compute. reflexivity. Qed.
Example test_remove_and_delete : (shows [oh; toml] ["Cargo.toml"] && shows [oh; toml; CViewRemove 1 (str "Cargo.toml")] ["oh hi!"])%bool = true.
Proof. vm_compute. reflexivity. Qed.
