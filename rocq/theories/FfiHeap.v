(** Model of the memory handed over by the C interface: remote-ffi/src/{lib,event,text,connection}.rs and the functions generated by
    remote-ffi-gen/src/lib.rs:102-147.  Ffi.v has the same conversions without memory.  The heap is a list of allocated boxes; an
    iterator with its vector is one box, a C string is one box.  Addresses are chosen by the allocator, which may use freed ones
    again.  Left out: alignment and sizes, the threads of a connection except that they push events (connection.rs:32-41), a panic
    ends the program, the C program does not write to the boxes.  Definitions only. *)
From Coq Require Import String List Arith ZArith Bool.
From Verif Require Import Base Maps Proto Payload Conn Ffi.
Import ListNotations.

Definition ptr := nat.
(** event.rs:12-35 [CedEvent] *)
Inductive h_event :=
| HEcho (message : ptr)
| HInfo (client session : ptr)
| HMenu (command title search items : ptr) (selected : Z)
| HStatus (items : ptr)
| HView (items : ptr).
(** what a box holds: strings (lib.rs:19-26), iterators (lib.rs:28-32, text.rs:21, event.rs:88, 106, 127, 143, 145), items (text.rs:7-10,
    event.rs:90-94, 108-115, 129-134; no function of the interface makes a [MenuItem]), events, versions (lib.rs:55-61), connections with what waits in the channel
    (connection.rs:12-14) *)
Inductive obj :=
| BString (s : text)
| BTextIter (i : iter fragment) | BMenuIter (i : iter entry) | BStatusIter (i : iter status_item) | BViewIter (i : iter witem)
| BLensIter (i : iter wlens) | BLineIter (i : iter rich)
| BTextItem (txt face : ptr) | BStatusItem (index : Z) (txt : ptr)
| BViewItem (buffer : ptr) (first last : Z) (lenses : ptr) | BViewLens (lines : ptr) (first : Z)
| BEvent (e : h_event) | BVersion (major minor patch pre : ptr) | BConnection (events : list cevent).
Definition heap := list (ptr * obj).

Inductive kind := KString | KTextIter | KMenuIter | KStatusIter | KViewIter | KLensIter | KLineIter
| KTextItem | KStatusItem | KViewItem | KViewLens | KEvent | KVersion | KConnection.
Definition kind_of (o : obj) : kind :=
  match o with
  | BString _ => KString | BTextIter _ => KTextIter | BMenuIter _ => KMenuIter | BStatusIter _ => KStatusIter | BViewIter _ => KViewIter
  | BLensIter _ => KLensIter | BLineIter _ => KLineIter | BTextItem _ _ => KTextItem | BStatusItem _ _ => KStatusItem
  | BViewItem _ _ _ _ => KViewItem | BViewLens _ _ => KViewLens | BEvent _ => KEvent | BVersion _ _ _ _ => KVersion | BConnection _ => KConnection
  end.
Definition kind_eqb (a b : kind) : bool :=
  match a, b with
  | KString, KString | KTextIter, KTextIter | KMenuIter, KMenuIter | KStatusIter, KStatusIter | KViewIter, KViewIter | KLensIter, KLensIter
  | KLineIter, KLineIter | KTextItem, KTextItem | KStatusItem, KStatusItem | KViewItem, KViewItem | KViewLens, KViewLens
  | KEvent, KEvent | KVersion, KVersion | KConnection, KConnection => true
  | _, _ => false
  end.
(** the Rust names *)
Definition kind_name (k : kind) : text :=
  match k with
  | KString => str "c_char" | KTextIter => str "CedTextIterator" | KMenuIter => str "MenuIterator" | KStatusIter => str "StatusIterator"
  | KViewIter => str "ViewIterator" | KLensIter => str "ViewLensIterator" | KLineIter => str "ViewLensLineIterator" | KTextItem => str "CedTextItem"
  | KStatusItem => str "StatusItem" | KViewItem => str "ViewItem" | KViewLens => str "ViewLens" | KEvent => str "CedEvent"
  | KVersion => str "CedVersion" | KConnection => str "CedConnection"
  end.

Fixpoint find (h : heap) (p : ptr) : option obj := match h with [] => None | (q, o) :: r => if q =? p then Some o else find r p end.
Fixpoint store (h : heap) (p : ptr) (o : obj) : heap := match h with [] => [] | (q, x) :: r => if q =? p then (q, o) :: r else (q, x) :: store r p o end.
Fixpoint free (h : heap) (p : ptr) : heap := match h with [] => [] | (q, x) :: r => if q =? p then r else (q, x) :: free r p end.

Section Heap.
(** the allocator: an address for the next box *)
Variable fresh : heap -> ptr.
(** the version of the crate, lib.rs:62-70 *)
Variables v_major v_minor v_patch v_pre : text.
(** lib.rs:12-17 [raw!] *)
Definition alloc (o : obj) (h : heap) : ptr * heap := let p := fresh h in (p, (p, o) :: h).
(** lib.rs:19-26 [cstring!] *)
Definition alloc_string (s : text) (h : heap) : res (ptr * heap) := s <- cstring s ;; Ok (alloc (BString s) h).

(** text.rs:12-19 *)
Definition new_text_item (f : fragment) (h : heap) : res (ptr * heap) :=
  '(t, h) <- alloc_string (fr_text f) h ;; '(n, h) <- alloc_string (face_name (fr_face f)) h ;; Ok (alloc (BTextItem t n) h).
(** event.rs:96-103 *)
Definition new_status_item (s : status_item) (h : heap) : res (ptr * heap) :=
  let '(t, h) := alloc (BTextIter (iter_of (st_text s))) h in Ok (alloc (BStatusItem (as_i32 (st_index s)) t) h).
(** event.rs:117-126 *)
Definition new_view_item (i : witem) (h : heap) : res (ptr * heap) :=
  '(b, h) <- alloc_string (wi_buffer i) h ;; let '(l, h) := alloc (BLensIter (iter_of (wi_lenses i))) h in
  Ok (alloc (BViewItem b (as_u32 (wi_start i)) (as_u32 (wi_end i)) l) h).
(** event.rs:136-143 *)
Definition new_lens (l : wlens) (h : heap) : res (ptr * heap) :=
  let '(x, h) := alloc (BLineIter (iter_of (wl_lines l))) h in Ok (alloc (BViewLens x (as_u32 (wl_first l))) h).
(** event.rs:37-65 *)
Definition new_event (e : cevent) (h : heap) : res (ptr * heap) :=
  match e with
  | CEcho t => let '(m, h) := alloc (BTextIter (iter_of t)) h in Ok (alloc (BEvent (HEcho m)) h)
  | CHint _ => Panic "not yet implemented"
  | CInfo c s => '(c, h) <- alloc_string c h ;; '(s, h) <- alloc_string s h ;; Ok (alloc (BEvent (HInfo c s)) h)
  | CMenu m => '(a, h) <- alloc_string (cm_command m) h ;; '(b, h) <- alloc_string (cm_title m) h ;; '(c, h) <- alloc_string (cm_search m) h ;;
      let '(i, h) := alloc (BMenuIter (iter_of (cm_entries m))) h in Ok (alloc (BEvent (HMenu a b c i (as_u32 (cm_selected m)))) h)
  | CStatus s => let '(i, h) := alloc (BStatusIter (iter_of s)) h in Ok (alloc (BEvent (HStatus i)) h)
  | CView v => let '(i, h) := alloc (BViewIter (iter_of v)) h in Ok (alloc (BEvent (HView i)) h)
  | CNoop => Panic "not yet implemented"
  end.

(** the calls of a C program; and, [Arrives], an event pushed by the thread of a connection *)
Inductive ccall :=
| Version
| Create (joins : bool)                     (* connection.rs:17-43: whether the session can be joined *)
| NextEvent (p : ptr)
| NextItem (k : kind) (p : ptr)             (* the function for iterators of this kind *)
| Destroy (k : kind) (p : option ptr)       (* the function for boxes of this kind; it may be given null *)
| Arrives (p : ptr) (e : cevent).
(** what the caller gets: a null pointer, a pointer and what it points to, or nothing *)
Inductive answer := Null | New (p : ptr) (o : obj) | Nothing.
Definition give (x : res (ptr * heap)) : res (answer * heap) :=
  '(p, h) <- x ;; match find h p with Some o => Ok (New p o, h) | None => Unspec end.
(** ffi-gen 132-141: a pointer that is not one of the function's type, or that was freed, is undefined behaviour; the position is
    advanced before the item is converted (lib.rs:47-51) *)
Definition next {A} (p : ptr) (i : iter A) (set : iter A -> obj) (conv : A -> heap -> res (ptr * heap)) (h : heap) : res (answer * heap) :=
  match nth_error (it_items i) (it_next i) with
  | None => Ok (Null, h)
  | Some x => give (conv x (store h p (set (mkIter (it_items i) (S (it_next i))))))
  end.
Definition call_c (c : ccall) (h : heap) : res (answer * heap) :=
  match c with
  | Version =>
      give ('(a, h) <- alloc_string v_major h ;; '(b, h) <- alloc_string v_minor h ;; '(c, h) <- alloc_string v_patch h ;; '(d, h) <- alloc_string v_pre h ;;
            Ok (alloc (BVersion a b c d) h))
  | Create joins => if joins then give (Ok (alloc (BConnection []) h)) else Ok (Null, h)
  | NextEvent p =>
      match find h p with
      | Some (BConnection []) => Ok (Null, h)                                     (* after five seconds, connection.rs:61-69 *)
      | Some (BConnection (e :: r)) => give (new_event e (store h p (BConnection r)))
      | _ => Unspec
      end
  | NextItem k p =>
      match k, find h p with
      | KTextIter, Some (BTextIter i) => next p i BTextIter new_text_item h
      | KStatusIter, Some (BStatusIter i) => next p i BStatusIter new_status_item h
      | KViewIter, Some (BViewIter i) => next p i BViewIter new_view_item h
      | KLensIter, Some (BLensIter i) => next p i BLensIter new_lens h
      | _, _ => Unspec
      end
  | Destroy k None => Ok (Nothing, h)                                            (* ffi-gen 113-117 *)
  | Destroy k (Some p) =>
      match find h p with
      | Some o => if kind_eqb (kind_of o) k then Ok (Nothing, free h p) else Unspec
      | None => Unspec
      end
  | Arrives p e =>
      match find h p with
      | Some (BConnection l) => Ok (Nothing, store h p (BConnection (l ++ [e])))
      | _ => Ok (Nothing, h)                                                     (* the receiver is gone: connection.rs:36-38 *)
      end
  end.
Fixpoint calls_c (cs : list ccall) (h : heap) : res (list answer * heap) :=
  match cs with
  | [] => Ok ([], h)
  | c :: r => '(a, h) <- call_c c h ;; '(l, h) <- calls_c r h ;; Ok (a :: l, h)
  end.
End Heap.
