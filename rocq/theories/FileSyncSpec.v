(** Files and the buffers that show them: the vocabulary of C83. *)
From Coq Require Import List Arith Bool.
From Verif Require Import Base PieceTable Coords Utf8 Diff Selection Maps StackMap Buffer View Core CoreSpec.
Import ListNotations.

(** the text of an open buffer *)
Definition text_in (k : core) (name x : text) : Prop := exists b, get (k_buffers k) name = Some b /\ pt_text (b_content b) = Ok x.
(** the text it reads as: its bytes, decoded piece by piece *)
Definition reads_as (k : core) (name x : text) : Prop := exists b, get (k_buffers k) name = Some b /\ pt_string (b_content b) = Ok x.
(** the file that editing [name] opens *)
Definition file_of (k : core) (name : text) : text := path_join (k_cwd k) name.
(** the buffer came from a file: it is not a scratch buffer *)
Definition from_file (k : core) (name : text) : Prop := exists b f, get (k_buffers k) name = Some b /\ b_source b = SFile f.
(** what may happen while the file system is as [P] says: any calls by anyone *)
Inductive meanwhile (G : Graphemes) (pol : policy) (P : disk -> Prop) (k : core) : core -> Prop :=
| mw_none : meanwhile G pol P k k
| mw_call d c k1 r k2 : meanwhile G pol P k k1 -> P d -> run_call G pol d c k1 = Ok (r, k2) -> meanwhile G pol P k k2
| mw_shuffle k1 k2 : meanwhile G pol P k k1 -> shuffle k1 k2 -> meanwhile G pol P k k2.
(** the states of an editor that only ever met such file systems, in which no script appends the empty text *)
Inductive reached_while (G : Graphemes) (pol : policy) (P : disk -> Prop) : core -> Prop :=
| rw_init cwd args k : editor_init G cwd args = Ok k -> reached_while G pol P k
| rw_call d c k r k' : reached_while G pol P k -> P d -> match c with CAppend _ x => x <> [] | _ => True end -> run_call G pol d c k = Ok (r, k') -> reached_while G pol P k'
| rw_shuffle k k' : reached_while G pol P k -> shuffle k k' -> reached_while G pol P k'.
