(** Specification of JSON texts (RFC 8259): which texts spell which value.  It knows nothing of how they are read: it is
    a grammar, with the meaning of every spelling.  The numbers the project can hold are the 64-bit integers; any other
    number is kept as it is written. *)
From Coq Require Import List Arith ZArith Permutation.
From Verif Require Import Base Json.
Import ListNotations.

(** ** section 2: insignificant white space *)
Definition white (w : text) : Prop := Forall (fun b => b = 32 \/ b = 9 \/ b = 10 \/ b = 13) w.

(** ** section 7: strings *)
(** a hexadecimal digit, in either case *)
Inductive hex : byte -> nat -> Prop :=
| hex_dec n : n < 10 -> hex (48 + n) n
| hex_low n : 10 <= n < 16 -> hex (87 + n) n
| hex_up n : 10 <= n < 16 -> hex (55 + n) n.
(** four of them *)
Inductive hex4 : text -> nat -> Prop :=
| hex_four a b c d x y z t : hex a x -> hex b y -> hex c z -> hex d t -> hex4 [a; b; c; d] (x * 4096 + y * 256 + z * 16 + t).
(** the UTF-8 form of a code point (Unicode standard, table 3-6), the shortest there is *)
Inductive utf8_of : nat -> text -> Prop :=
| utf8_1 n : n < 128 -> utf8_of n [n]
| utf8_2 x y : x < 32 -> y < 64 -> 128 <= x * 64 + y -> utf8_of (x * 64 + y) [192 + x; 128 + y]
| utf8_3 x y z : x < 16 -> y < 64 -> z < 64 -> 2048 <= (x * 64 + y) * 64 + z ->
    utf8_of ((x * 64 + y) * 64 + z) [224 + x; 128 + y; 128 + z]
| utf8_4 x y z t : x < 8 -> y < 64 -> z < 64 -> t < 64 -> 16 * 4096 <= ((x * 64 + y) * 64 + z) * 64 + t ->
    utf8_of (((x * 64 + y) * 64 + z) * 64 + t) [240 + x; 128 + y; 128 + z; 128 + t].
(** the letter after the backslash and the byte it stands for: quote, backslash, slash, b, f, n, r, t *)
Definition short_escape (c b : byte) : Prop :=
  In (c, b) [(34, 34); (92, 92); (47, 47); (98, 8); (102, 12); (110, 10); (114, 13); (116, 9)].
(** surrogates: D800 to DBFF and DC00 to DFFF *)
Definition leading (n h : nat) : Prop := n = 54 * 1024 + h /\ h < 1024.
Definition trailing (n l : nat) : Prop := n = 55 * 1024 + l /\ l < 1024.
(** what stands between the quotes, and the bytes of the string it spells *)
Inductive str_body : text -> text -> Prop :=
| sb_nil : str_body [] []
| sb_plain b s x : 32 <= b -> b <> 34 -> b <> 92 -> str_body s x -> str_body (b :: s) (b :: x)
| sb_short c b s x : short_escape c b -> str_body s x -> str_body (92 :: c :: s) (b :: x)
| sb_code h n c s x : hex4 h n -> (forall k, ~ leading n k) -> (forall k, ~ trailing n k) -> utf8_of n c ->
    str_body s x -> str_body (92 :: 117 :: h ++ s) (c ++ x)
| sb_pair h n i h' n' l c s x : hex4 h n -> leading n i -> hex4 h' n' -> trailing n' l -> utf8_of (64 * 1024 + i * 1024 + l) c ->
    str_body s x -> str_body (92 :: 117 :: h ++ 92 :: 117 :: h' ++ s) (c ++ x).
Definition spells_str (s x : text) : Prop := exists t, s = 34 :: t ++ [34] /\ str_body t x.

(** ** section 6: numbers *)
Definition a_digit (b : byte) : Prop := 48 <= b <= 57.
Definition digits (s : text) : Prop := s <> [] /\ Forall a_digit s.
(** zero, or digits of which the first is not zero *)
Definition int_part (s : text) : Prop := digits s /\ (s = [48] \/ hd 0 s <> 48).
Definition frac_part (s : text) : Prop := s = [] \/ exists ds, s = 46 :: ds /\ digits ds.
Definition exp_part (s : text) : Prop :=
  s = [] \/ exists e sg ds, s = e :: sg ++ ds /\ (e = 101 \/ e = 69) /\ (sg = [] \/ sg = [43] \/ sg = [45]) /\ digits ds.
Definition magnitude (ds : text) : Z := fold_left (fun a d => (10 * a + Z.of_nat (d - 48))%Z) ds 0%Z.
(** the integers that fit 64 bits, signed or not; minus zero is none *)
Definition held (minus : bool) (ds : text) (v : Z) : Prop :=
  v = (if minus then - magnitude ds else magnitude ds)%Z /\ (i64_min <= v <= u64_max)%Z /\ (minus = true -> v <> 0%Z).
Definition sign (minus : bool) : text := if minus then [45] else [].

(** ** sections 3, 4, 5: values *)
Inductive spells : text -> json -> Prop :=
| sp_null : spells [110; 117; 108; 108] JNull
| sp_true : spells [116; 114; 117; 101] (JBool true)
| sp_false : spells [102; 97; 108; 115; 101] (JBool false)
| sp_int m ds v : int_part ds -> held m ds v -> spells (sign m ++ ds) (JInt v)
| sp_float m ds fr ex : int_part ds -> frac_part fr -> exp_part ex ->
    (fr = [] -> ex = [] -> forall v, ~ held m ds v) -> spells (sign m ++ ds ++ fr ++ ex) (JFloat (sign m ++ ds ++ fr ++ ex))
| sp_str s x : spells_str s x -> spells s (JStr x)
| sp_arr0 w : white w -> spells (91 :: w ++ [93]) (JArr [])
| sp_arr s l : items s l -> spells (91 :: s ++ [93]) (JArr l)
| sp_obj0 w : white w -> spells (123 :: w ++ [125]) (JObj [])
| sp_obj s l : members s l -> spells (123 :: s ++ [125]) (JObj l)
with items : text -> list json -> Prop :=
| it_one w s j w' : white w -> spells s j -> white w' -> items (w ++ s ++ w') [j]
| it_more w s j w' t l : white w -> spells s j -> white w' -> items t l -> items (w ++ s ++ w' ++ 44 :: t) (j :: l)
with members : text -> list (text * json) -> Prop :=
| mb_one w q k w1 w2 s j w' : white w -> spells_str q k -> white w1 -> white w2 -> spells s j -> white w' ->
    members (w ++ q ++ w1 ++ 58 :: w2 ++ s ++ w') [(k, j)]
| mb_more w q k w1 w2 s j w' t l : white w -> spells_str q k -> white w1 -> white w2 -> spells s j -> white w' -> members t l ->
    members (w ++ q ++ w1 ++ 58 :: w2 ++ s ++ w' ++ 44 :: t) ((k, j) :: l).
(** a whole line *)
Definition line_spells (line : text) (j : json) : Prop := exists w s w', line = w ++ s ++ w' /\ white w /\ spells s j /\ white w'.
(** how deeply arrays and objects are nested *)
Inductive nested : nat -> json -> Prop :=
| ne_leaf n j : (forall l, j <> JArr l) -> (forall l, j <> JObj l) -> nested n j
| ne_arr n l : (forall j, In j l -> nested n j) -> nested (S n) (JArr l)
| ne_obj n l : (forall k j, In (k, j) l -> nested n j) -> nested (S n) (JObj l).

(** ** values that differ only by the order of the members of their objects, where no name occurs twice *)
Inductive same_value : json -> json -> Prop :=
| sv_leaf j : (forall l, j <> JArr l) -> (forall l, j <> JObj l) -> same_value j j
| sv_arr l l' : Forall2 same_value l l' -> same_value (JArr l) (JArr l')
| sv_obj l m l' : NoDup (map fst l) -> Permutation l m -> Forall2 (fun a b => fst a = fst b /\ same_value (snd a) (snd b)) m l' ->
    same_value (JObj l) (JObj l').

(** ** every string of a value, names included *)
Inductive string_of : text -> json -> Prop :=
| st_str x : string_of x (JStr x)
| st_arr x j l : In j l -> string_of x j -> string_of x (JArr l)
| st_name x j l : In (x, j) l -> string_of x (JObj l)
| st_obj x k j l : In (k, j) l -> string_of x j -> string_of x (JObj l).
