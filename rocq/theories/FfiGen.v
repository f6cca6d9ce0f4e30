(** Model of the generator of the C interface, remote-ffi-gen/src/lib.rs, of its configuration remote-ffi/ffigen.toml, and of the
    types the interface hands out (remote-ffi/src/{event,text,connection,lib}.rs).  A declaration is represented by its name and the types in its
    signature instead of its source text; reading the configuration (toml), writing the file and formatting it are left out.
    Definitions only. *)
From Coq Require Import String List Arith Bool.
From Verif Require Import Base Maps Utf8 Chars Keys View.
Import ListNotations.

(** ffi-gen 9-18 [to_snake_case]; [upper] is [char::is_uppercase] *)
Definition snake_char (upper : text -> bool) (first : bool) (c : text) : text :=
  (if negb first && upper c then str "_" else []) ++ ascii_lower c.
Fixpoint snake_chars (upper : text -> bool) (first : bool) (cs : list text) : text :=
  match cs with
  | [] => []
  | c :: r => snake_char upper first c ++ snake_chars upper false r
  end.
Definition to_snake_case (upper : text -> bool) (s : text) : text := snake_chars upper true (chars s).

(** [str::ends_with] *)
Definition ends_with (s p : text) : bool := starts_with (rev p) (rev s).
(** ffi-gen 28-39 [Struct], [Functions] *)
Record structure := mkStruct { st_symbol : text; st_module : text; st_iterator : bool }.
(** ffi-gen 42-50 [bare_type] *)
Definition bare_type (st : structure) : text :=
  if ends_with (st_symbol st) (str "Item") then firstn (length (st_symbol st) - 4) (st_symbol st)
  else if ends_with (st_symbol st) (str "Iterator") then firstn (length (st_symbol st) - 8) (st_symbol st)
  else st_symbol st.
(** ffi-gen 52-58 [iterator_struct] *)
Definition iterator_struct (st : structure) : structure := mkStruct (bare_type st ++ str "Iterator") (st_module st) false.

(** ffi-gen 61-75 [Config] (the header is a comment) and [SourceBuilder] *)
Record config := mkConfig { cf_prefix : text; cf_structures : list structure }.
Inductive decl :=
(** [fn name(p: *mut type)] *)
| DDestroy (name type : text)
(** [fn name(p: *mut iterator) -> *mut item] *)
| DNext (name iterator item : text).
Record builder := mkBuilder { bu_uses : list text; bu_decls : list decl }.

Section Gen.
Variable upper : text -> bool.
Variable prefix : text.
(** ffi-gen 105-108, 126-129 *)
Definition prefixed (name : text) : text := if starts_with prefix name then name else prefix ++ name.
(** ffi-gen 93-96 [register_use] *)
Definition use_of (st : structure) : text := str "use " ++ st_module st ++ str "::" ++ st_symbol st ++ str ";".
Definition register_use (u : text) (b : builder) : builder := mkBuilder (bu_uses b ++ [u]) (bu_decls b).
(** ffi-gen 98-100 [register_decl] *)
Definition register_decl (d : decl) (b : builder) : builder := mkBuilder (bu_uses b) (bu_decls b ++ [d]).
(** ffi-gen 102-123 [register_fn_destroy] *)
Definition register_fn_destroy (st : structure) (b : builder) : builder :=
  register_decl (DDestroy (prefixed (to_snake_case upper (st_symbol st) ++ str "_destroy")) (st_symbol st)) (register_use (use_of st) b).
(** ffi-gen 125-147 [register_fn_next_item] *)
Definition register_fn_next_item (st item : structure) (b : builder) : builder :=
  register_decl (DNext (prefixed (to_snake_case upper (bare_type st) ++ str "_next_item")) (st_symbol st) (st_symbol item)) b.
(** ffi-gen 149-156 [register_fns_iterator] *)
Definition register_fns_iterator (st : structure) (b : builder) : builder :=
  let b := register_use (str "use std::ptr;") (register_use (use_of st) b) in
  let it := iterator_struct st in
  register_fn_next_item it st (register_fn_destroy it b).
(** ffi-gen 160-165 *)
Definition register (b : builder) (st : structure) : builder :=
  let b := register_fn_destroy st b in
  if st_iterator st then register_fns_iterator st b else b.
End Gen.
(** [Vec::sort] on strings, [Vec::dedup] *)
Fixpoint dedup (l : list text) : list text :=
  match l with
  | a :: r => match r with b :: _ => if eqb a b then dedup r else a :: dedup r | [] => [a] end
  | [] => []
  end.
(** ffi-gen 158-170 [generate] *)
Definition generate (upper : text -> bool) (c : config) : builder :=
  let b := fold_left (register upper (cf_prefix c)) (cf_structures c) (mkBuilder [] []) in
  mkBuilder (dedup (sort_by text_cmp (bu_uses b))) (bu_decls b).

(** remote-ffi/ffigen.toml; the default module is ffi-gen 24-26 *)
Definition shipped_config : config :=
  mkConfig (str "ced_")
    [ mkStruct (str "CedConnection") (str "crate::connection") false;
      mkStruct (str "CedEvent") (str "crate::event") false;
      mkStruct (str "CedTextItem") (str "crate::text") true;
      mkStruct (str "CedVersion") (str "crate") false;
      mkStruct (str "StatusItem") (str "crate::event") true;
      mkStruct (str "ViewItem") (str "crate::event") true;
      mkStruct (str "ViewLens") (str "crate::event") true ].

(** the pointers in a value of a type, except strings: event.rs:12-35, 67-72, 91-95, 109-116, 131-135, text.rs:7-10, lib.rs:55-60,
    connection.rs:12-14.  An iterator is opaque: its items come from its next-item function. *)
Definition fields (t : text) : list text :=
  if eqb t (str "CedEvent") then [str "CedTextIterator"; str "MenuIterator"; str "StatusIterator"; str "ViewIterator"]
  else if eqb t (str "MenuItem") then [str "CedTextIterator"]
  else if eqb t (str "StatusItem") then [str "CedTextIterator"]
  else if eqb t (str "ViewItem") then [str "ViewLensIterator"]
  else if eqb t (str "ViewLens") then [str "ViewLensLineIterator"]
  else [].
(** what the functions written by hand return: connection.rs:17-43, 46-70, lib.rs:62-70 *)
Definition created : list text := [str "CedConnection"; str "CedEvent"; str "CedVersion"].
