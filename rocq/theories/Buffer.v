(** Model of struct Buffer (core/src/editor/buffer.rs:61-195).  Names of buffers (find_uniq_name) are in Names.v.
    [modified] (buffer.rs:65) is written and never read: omitted.  Definitions only. *)
From Coq Require Import String List Arith Bool.
From Verif Require Import Base PieceTable Coords Utf8 Diff LineSpec Maps.
Import ListNotations.

(** What the file system answers while a request is handled: [dk_read] the text of a file that can be opened and
    read as UTF-8, [dk_mtime] the modification time of an existing regular file, [dk_now] the clock.  The file
    system is free to change between requests. *)
Record disk := mkDisk { dk_read : text -> option text; dk_mtime : text -> option nat; dk_now : nat }.

(** buffer.rs:38-42 [enum BufferSource] *)
Inductive source := SScratch (name : text) | SFile (path : text).
(** buffer.rs:61-66 [struct Buffer] *)
Record buffer := mkBuf { b_source : source; b_content : pt; b_sync : option nat }.

(** buffer.rs:69-80 [new_scratch] *)
Definition new_scratch (name content : text) : buffer :=
  mkBuf (SScratch name) (pt_with_text (match content with [] => [LF] | _ => content end)) None.

(** [str::ends_with('\n')] *)
Definition ends_lf (s : text) : bool := match rev s with b :: _ => b =? LF | [] => false end.

(** buffer.rs:82-107 [new_file]; core.rs:432-436 always gives an absolute path *)
Definition new_file (d : disk) (path : text) : res buffer :=
  content <- unwrap (dk_read d path) "called Result::unwrap on Err" ;;
  Ok (mkBuf (SFile path) (pt_with_text (if ends_lf content then content else content ++ [LF])) (Some (dk_now d))).

(** buffer.rs:124-143 [is_synced] *)
Definition is_synced (d : disk) (b : buffer) : bool :=
  match b_source b with
  | SScratch _ => true
  | SFile path =>
      match b_sync b with
      | None => false
      | Some dt => match dk_mtime d path with Some m => m <? dt | None => false end
      end
  end.

(** buffer.rs:145-161 [load_from_disk] *)
Definition load_from_disk (pol : policy) (d : disk) (b : buffer) : res (bool * buffer) :=
  match b_source b with
  | SScratch _ => Ok (true, b)
  | SFile path =>
      if is_synced d b then Ok (false, b)
      else
        content <- unwrap (dk_read d path) "called Result::unwrap on Err" ;;
        t <- pt_apply_diff pol content (b_content b) ;;
        Ok (true, mkBuf (b_source b) t (Some (dk_now d)))
  end.

Definition set_content (b : buffer) (t : pt) : buffer := mkBuf (b_source b) t (b_sync b).

(** buffer.rs:163-166 [append] *)
Definition buf_append (s : text) (b : buffer) : res buffer :=
  t <- pt_append s (b_content b) ;; Ok (set_content b t).

(** buffer.rs:184-192 [to_string] *)
Definition buf_to_string (b : buffer) : res text :=
  s <- pt_string (b_content b) ;;
  Ok (if negb (match s with [] => true | _ => false end) && negb (ends_lf s) then s ++ [LF] else s).
