(** One user, with the scripts of the program: the vocabulary of C72_one_client and C79_one_user. *)
From Coq Require Import String List Arith ZArith Bool.
From Verif Require Import Base PieceTable Coords Maps Buffer View Core Editor Server Shipped.
Import ListNotations.

(** nobody writes a file while the editor runs: files that can be read were written before [t], and the clock is past that *)
Definition undisturbed (t : nat) (d : disk) : Prop :=
  t <= dk_now d /\ forall p, dk_read d p <> None -> exists m, dk_mtime d p = Some m /\ m < t.
(** an editor that has just been started, with the scripts of the program only *)
Definition started_plain (G : Graphemes) (pol : policy) (R : lua_rest) (session : text) (e : editor (shipped R)) : Prop :=
  exists w cwd args st path, editor_new G pol (shipped R) w session cwd args st (prelude path) = Ok e.
