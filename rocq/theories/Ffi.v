(** Model of the C interface, remote-ffi/src/lib.rs, text.rs, event.rs and the functions generated by
    remote-ffi-gen/src/lib.rs:124-146.  A C string is the bytes before its final NUL; an iterator handed over by pointer is
    the list it enumerates and its position; memory management (the [_destroy] functions) is in FfiHeap.v.  Definitions
    only. *)
From Coq Require Import String List Arith ZArith Bool.
From Verif Require Import Base Maps Proto Payload Conn.
Import ListNotations.

(** lib.rs:19-26 [cstring!] *)
Definition cstring (s : text) : res text := if existsb (Nat.eqb 0) s then Panic "failed to encode string" else Ok s.
(** lib.rs:28-42 [IndexedIterator] and its creation *)
Record iter (A : Type) := mkIter { it_items : list A; it_next : nat }.
Arguments mkIter {A}. Arguments it_items {A}. Arguments it_next {A}.
Definition iter_of {A} (l : list A) : iter A := mkIter l 0.
(** lib.rs:44-52 [next], ffi-gen 124-146 [_next_item]: the item converted, or null *)
Definition next_item {A B} (conv : A -> res B) (i : iter A) : res (option B * iter A) :=
  match nth_error (it_items i) (it_next i) with
  | None => Ok (None, i)
  | Some x => let i := mkIter (it_items i) (S (it_next i)) in y <- conv x ;; Ok (Some y, i)
  end.

(** [as u32], [as i32] *)
Definition as_u32 (n : nat) : Z := (Z.of_nat n mod 4294967296)%Z.
Definition as_i32 (z : Z) : Z := ((z + 2147483648) mod 4294967296 - 2147483648)%Z.
(** text.rs:7-19 [CedTextItem] *)
Record c_text_item := mkCT { ct_text : text; ct_face : text }.
Definition face_name (f : face) : text := match f with FDefault => str "Default" | FError => str "Error" | FMatch => str "Match" | FPrompt => str "Prompt" | FSelection => str "Selection" end.
Definition conv_fragment (f : fragment) : res c_text_item := t <- cstring (fr_text f) ;; n <- cstring (face_name (fr_face f)) ;; Ok (mkCT t n).
(** event.rs:69-89 [MenuItem] *)
Record c_menu_item := mkCMI { cmi_value : text; cmi_text : iter fragment; cmi_descr : option text }.
Definition conv_entry (e : entry) : res c_menu_item :=
  v <- cstring (en_value e) ;;
  d <- (match en_descr e with Some d => d <- cstring d ;; Ok (Some d) | None => Ok None end) ;;
  Ok (mkCMI v (iter_of (en_text e)) d).
(** event.rs:93-106 [StatusItem] *)
Record c_status_item := mkCSI { csi_index : Z; csi_text : iter fragment }.
Definition conv_status (s : status_item) : res c_status_item := Ok (mkCSI (as_i32 (st_index s)) (iter_of (st_text s))).
(** event.rs:110-128 [ViewItem], 132-146 [ViewLens] and its lines *)
Record c_lens := mkCL { cl_lines : iter rich; cl_first : Z }.
Definition conv_lens (l : wlens) : res c_lens := Ok (mkCL (iter_of (wl_lines l)) (as_u32 (wl_first l))).
Record c_view_item := mkCVI { cvi_buffer : text; cvi_start : Z; cvi_end : Z; cvi_lenses : iter wlens }.
Definition conv_view (i : witem) : res c_view_item :=
  b <- cstring (wi_buffer i) ;; Ok (mkCVI b (as_u32 (wi_start i)) (as_u32 (wi_end i)) (iter_of (wi_lenses i))).
(** a line is handed over as an iterator on its fragments (text.rs:23-32) *)
Definition conv_line (t : rich) : res (iter fragment) := Ok (iter_of t).
(** event.rs:12-65 [CedEvent] *)
Inductive c_event :=
| CeEcho (message : iter fragment)
| CeInfo (client session : text)
| CeMenu (command title search : text) (items : iter entry) (selected : Z)
| CeStatus (items : iter status_item)
| CeView (items : iter witem).
Definition conv_event (e : cevent) : res c_event :=
  match e with
  | CEcho t => Ok (CeEcho (iter_of t))
  | CHint _ => Panic "not yet implemented"
  | CInfo c s => c <- cstring c ;; s <- cstring s ;; Ok (CeInfo c s)
  | CMenu m => a <- cstring (cm_command m) ;; b <- cstring (cm_title m) ;; c <- cstring (cm_search m) ;; Ok (CeMenu a b c (iter_of (cm_entries m)) (as_u32 (cm_selected m)))
  | CStatus s => Ok (CeStatus (iter_of s))
  | CView v => Ok (CeView (iter_of v))
  | CNoop => Panic "not yet implemented"
  end.

(** ** the last error, lib.rs:71-120.  Its length fits a C [int]. *)
Inductive call := SetError (message : text) | Length | Message (buffer : option (list nat)).
(** the value returned and the buffer after the call; [length] is the size of the buffer (a negative one is undefined
    behaviour and not modelled) *)
Definition last_error_call (pending : option text) (c : call) : option text * Z * option (list nat) :=
  match c with
  | SetError m => (Some m, 0%Z, None)
  | Length => (pending, match pending with Some m => Z.of_nat (length m) | None => (-1)%Z end, None)
  | Message None => (pending, (-1)%Z, None)
  | Message (Some b) =>
      match pending with
      | None => (None, 0%Z, Some b)
      | Some m => if length b <=? length m then (None, (-2)%Z, Some b)
                  else (None, Z.of_nat (length m), Some (m ++ 0 :: skipn (S (length m)) b))
      end
  end.
Definition pending_after (l : list call) : option text := fold_left (fun p c => fst (fst (last_error_call p c))) l None.
