(** Model of the part of serde_json 1.0 the project relies on: printing ([to_string]), reading ([from_str]) and values
    ([Value]).  serde_json is a dependency: its behaviour is transcribed from its documentation and is part of the
    trusted base; what the project builds on it (remote/src/jsonrpc.rs, protocol.rs, keys.rs) is in Proto.v.  Simplifications:
    - a floating-point number is kept as written ([JFloat]), and never "out of range";
    - the members a decoder ignores are read like any value.
    Definitions only. *)
From Coq Require Import List Arith ZArith Bool.
From Verif Require Import Base Fmt View.
Import ListNotations.

Inductive json :=
| JNull | JBool (b : bool) | JInt (z : Z) | JFloat (raw : text) | JStr (s : text)
| JArr (l : list json) | JObj (l : list (text * json)).

(** ** printing *)
Definition hex_digit (n : nat) : byte := if n <? 10 then 48 + n else 87 + n.
(** serde_json ser.rs, [format_escaped_str_contents] *)
Definition escape (b : byte) : text :=
  if b =? 34 then [92; 34] else if b =? 92 then [92; 92] else if b =? 8 then [92; 98] else if b =? 9 then [92; 116]
  else if b =? 10 then [92; 110] else if b =? 12 then [92; 102] else if b =? 13 then [92; 114]
  else if b <? 32 then [92; 117; 48; 48; hex_digit (b / 16); hex_digit (b mod 16)] else [b].
Definition print_str (s : text) : text := 34 :: flat_map escape s ++ [34].
Definition print_int (z : Z) : text := if (z <? 0)%Z then 45 :: dec (Z.to_nat (- z)) else dec (Z.to_nat z).
(** comma-separated *)
Fixpoint commas (l : list text) : text :=
  match l with [] => [] | [x] => x | x :: r => x ++ 44 :: commas r end.
Fixpoint print (j : json) : text :=
  match j with
  | JNull => [110; 117; 108; 108]
  | JBool true => [116; 114; 117; 101]
  | JBool false => [102; 97; 108; 115; 101]
  | JInt z => print_int z
  | JFloat raw => raw
  | JStr s => print_str s
  | JArr l => 91 :: commas (map print l) ++ [93]
  | JObj l => 123 :: commas (map (fun e => print_str (fst e) ++ 58 :: print (snd e)) l) ++ [125]
  end.

(** ** reading *)
Definition is_ws (b : byte) : bool := (b =? 32) || (b =? 9) || (b =? 10) || (b =? 13).
Definition skip_ws (s : text) : text := drop_while is_ws s.
Definition unhex (b : byte) : option nat :=
  if digit b then Some (b - 48) else if (97 <=? b) && (b <=? 102) then Some (b - 87)
  else if (65 <=? b) && (b <=? 70) then Some (b - 55) else None.
(** four hexadecimal digits *)
Definition unhex4 (s : text) : option (nat * text) :=
  match s with
  | a :: b :: c :: d :: r =>
      match unhex a, unhex b, unhex c, unhex d with
      | Some a, Some b, Some c, Some d => Some (((a * 16 + b) * 16 + c) * 16 + d, r)
      | _, _, _, _ => None
      end
  | _ => None
  end.
(** [char::encode_utf8] *)
Definition encode_char (n : nat) : text :=
  if n <? 128 then [n]
  else if n <? 2048 then [192 + n / 64; 128 + n mod 64]
  else if n <? 16 * 4096 then [224 + n / 4096; 128 + n / 64 mod 64; 128 + n mod 64]
  else [240 + n / 64 / 4096; 128 + n / 4096 mod 64; 128 + n / 64 mod 64; 128 + n mod 64].
(** serde_json read.rs, [parse_escape]: after the backslash *)
Definition read_escape (s : text) : option (text * text) :=
  match s with
  | 34 :: r => Some ([34], r) | 92 :: r => Some ([92], r) | 47 :: r => Some ([47], r) | 98 :: r => Some ([8], r)
  | 102 :: r => Some ([12], r) | 110 :: r => Some ([10], r) | 114 :: r => Some ([13], r) | 116 :: r => Some ([9], r)
  | 117 :: r =>
      match unhex4 r with
      | None => None
      | Some (n, r) =>
          if n / 1024 =? 55 then None          (* a trailing surrogate, DC00 to DFFF *)
          else if n / 1024 =? 54 then          (* a leading one, D800 to DBFF *)
            match r with
            | 92 :: 117 :: r =>
                match unhex4 r with
                | Some (m, r) =>
                    if m / 1024 =? 55 then Some (encode_char ((n mod 1024 + 64) * 1024 + m mod 1024), r) else None
                | None => None
                end
            | _ => None
            end
          else Some (encode_char n, r)
      end
  | _ => None
  end.
(** the rest of a string, after the opening quote *)
Fixpoint read_str (fuel : nat) (s : text) : option (text * text) :=
  match fuel with
  | 0 => None
  | S f =>
      match s with
      | [] => None
      | b :: r =>
          if b =? 34 then Some ([], r)
          else if b =? 92 then
            match read_escape r with
            | Some (x, r) => match read_str f r with Some (y, r) => Some (x ++ y, r) | None => None end
            | None => None
            end
          else if b <? 32 then None else match read_str f r with Some (y, r) => Some (b :: y, r) | None => None end
      end
  end.
Definition zvalue (s : text) : Z := Z.of_nat (value s).
(** the part of a number after its integer part: nothing, or a fraction and an exponent *)
Definition read_frac (s : text) : option (text * text) :=
  match s with
  | b :: r =>
      if b =? 46 then match take_while digit r with [] => None | ds => Some (46 :: ds, drop_while digit r) end
      else Some ([], s)
  | [] => Some ([], s)
  end.
Definition read_exp (s : text) : option (text * text) :=
  match s with
  | e :: r =>
      if (e =? 101) || (e =? 69) then
        let '(sg, r) := match r with 43 :: q => ([43], q) | 45 :: q => ([45], q) | _ => ([], r) end in
        match take_while digit r with [] => None | ds => Some (e :: sg ++ ds, drop_while digit r) end
      else Some ([], s)
  | [] => Some ([], s)
  end.
Definition u64_max : Z := 18446744073709551615.
Definition i64_min : Z := (-9223372036854775808).
(** serde_json de.rs, [parse_integer]; a number that is not a 64-bit integer becomes a float *)
Definition read_num (neg : bool) (s : text) : option (json * text) :=
  let ds := take_while digit s in
  match ds with
  | [] => None
  | b :: l =>
      if (b =? 48) && negb (match l with [] => true | _ => false end) then None      (* a superfluous zero *)
      else
      match read_frac (drop_while digit s) with
      | None => None
      | Some (fr, r) =>
          match read_exp r with
          | None => None
          | Some (ex, r) =>
              let raw := (if neg then [45] else []) ++ ds ++ fr ++ ex in
              let v := if neg then (- zvalue ds)%Z else zvalue ds in
              Some (if (match fr ++ ex with [] => true | _ => false end) && (i64_min <=? v)%Z && (v <=? u64_max)%Z && negb (neg && (v =? 0)%Z)
                    then JInt v else JFloat raw, r)
          end
      end
  end.
(** what follows [c] *)
Definition after (c : byte) (s : text) : option text := match s with b :: r => if b =? c then Some r else None | [] => None end.
(** what follows the text [l] *)
Fixpoint after_all (l s : text) : option text :=
  match l with [] => Some s | c :: l => match after c s with Some r => after_all l r | None => None end end.
Definition literal (l : text) (j : json) (s : text) : option (json * text) :=
  match after_all l s with Some r => Some (j, r) | None => None end.
(** values; [d] is the number of levels that may still be opened, plus one (serde_json [remaining_depth]) *)
Fixpoint read (fuel d : nat) (s : text) : option (json * text) :=
  match fuel with
  | 0 => None
  | S f =>
      match skip_ws s with
      | [] => None
      | b :: r =>
          if b =? 110 then literal [117; 108; 108] JNull r
          else if b =? 116 then literal [114; 117; 101] (JBool true) r
          else if b =? 102 then literal [97; 108; 115; 101] (JBool false) r
          else if b =? 34 then match read_str (S (length r)) r with Some (x, r) => Some (JStr x, r) | None => None end
          else if b =? 91 then
            match d with
            | S (S d) =>
                match after 93 (skip_ws r) with
                | Some r => Some (JArr [], r)
                | None => match read_list f (S d) r with Some (l, r) => Some (JArr l, r) | None => None end
                end
            | _ => None
            end
          else if b =? 123 then
            match d with
            | S (S d) =>
                match after 125 (skip_ws r) with
                | Some r => Some (JObj [], r)
                | None => match read_members f (S d) r with Some (l, r) => Some (JObj l, r) | None => None end
                end
            | _ => None
            end
          else if b =? 45 then read_num true r
          else read_num false (b :: r)
      end
  end
with read_list (fuel d : nat) (s : text) : option (list json * text) :=
  match fuel with
  | 0 => None
  | S f =>
      match read f d s with
      | None => None
      | Some (x, r) =>
          match after 93 (skip_ws r) with
          | Some r => Some ([x], r)
          | None =>
              match after 44 (skip_ws r) with
              | Some r => match read_list f d r with Some (l, r) => Some (x :: l, r) | None => None end
              | None => None
              end
          end
      end
  end
with read_members (fuel d : nat) (s : text) : option (list (text * json) * text) :=
  match fuel with
  | 0 => None
  | S f =>
      match after 34 (skip_ws s) with
      | None => None
      | Some r =>
          match read_str (S (length r)) r with
          | None => None
          | Some (k, r) =>
              match after 58 (skip_ws r) with
              | None => None
              | Some r =>
                  match read f d r with
                  | None => None
                  | Some (x, r) =>
                      match after 125 (skip_ws r) with
                      | Some r => Some ([(k, x)], r)
                      | None =>
                          match after 44 (skip_ws r) with
                          | Some r => match read_members f d r with Some (l, r) => Some ((k, x) :: l, r) | None => None end
                          | None => None
                          end
                      end
                  end
              end
          end
      end
  end.
(** [from_str]: the whole text *)
Definition parse (s : text) : option json :=
  match read (2 * length s + 2) 128 s with
  | Some (j, r) => match skip_ws r with [] => Some j | _ => None end
  | None => None
  end.

(** ** values: the members of an object are sorted, the last of several with the same name is kept *)
Fixpoint put (k : text) (v : json) (l : list (text * json)) : list (text * json) :=
  match l with
  | [] => [(k, v)]
  | (k', v') :: r =>
      match text_cmp k k' with
      | Lt => (k, v) :: l
      | Eq => (k, v) :: r
      | Gt => (k', v') :: put k v r
      end
  end.
Fixpoint norm (j : json) : json :=
  match j with
  | JArr l => JArr (map norm l)
  | JObj l => JObj (fold_left (fun m e => put (fst e) (snd e) m) (map (fun e => (fst e, norm (snd e))) l) [])
  | _ => j
  end.
