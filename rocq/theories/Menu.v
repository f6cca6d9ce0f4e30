(** Model of core/src/editor/menu.rs: filtering, scoring and tokenizing of menu entries, and the menus themselves.
    The crate regex (1.5.4) is a dependency.  The patterns made of literal characters, [.*] and groups are transcribed from
    its documentation (leftmost match, greedy repetition, [.] does not match the line feed, [(?i)] compares characters by their
    simple case folding); any other pattern is answered by a parameter.  Definitions only. *)
From Coq Require Import String List Arith ZArith Bool.
From Verif Require Import Base Maps Utf8 Fmt Chars View Json Proto Payload.
Import ListNotations.

(** ** Rust standard library: [str::split_whitespace] *)
Fixpoint words_from (cs : list text) (cur : text) : list text :=
  match cs with
  | [] => match cur with [] => [] | _ => [cur] end
  | c :: r =>
      if is_whitespace c then match cur with [] => words_from r [] | _ => cur :: words_from r [] end
      else words_from r (cur ++ c)
  end.
Definition split_whitespace (s : text) : list text := words_from (chars s) [].

(** ** The crate regex *)
(** what a compiled pattern finds in a text: the ranges of the groups, the whole match first; a group may be unset *)
Notation locations := (list (option (nat * nat))) (only parsing).
Record regex_crate := {
  (** simple case folding of the characters beyond ASCII *)
  rx_fold : text -> text;
  (** the compiled pattern fits the size and nesting limits of the crate *)
  rx_fits : text -> bool;
  (** any other pattern: [None] for a syntax error, the number of groups (counting the whole match) otherwise *)
  rx_other : text -> option (text -> option locations) }.
Definition fold_char (u : regex_crate) (c : text) : text :=
  match c with [a] => if between 65 90 a then [a + 32] else [a] | _ => rx_fold u c end.
(** pattern elements: opening and closing of a group, a character, [.*] *)
Inductive ritem := IOpen | IClose | ILit (c : text) | IGap.
(** the characters with a meaning of their own, parentheses excepted: backslash . + * ? | [ ] { } ^ $ *)
Definition special (c : text) : bool :=
  match c with
  | [b] => (b =? 92) || (b =? 46) || (b =? 43) || (b =? 42) || (b =? 63) || (b =? 124) || (b =? 91) || (b =? 93) || (b =? 123) || (b =? 125) || (b =? 94) || (b =? 36)
  | _ => false
  end.
(** [None]: a pattern outside the transcribed part *)
Fixpoint parse_items (cs : list text) : option (list ritem) :=
  match cs with
  | [] => Some []
  | c :: r =>
      if eqb c [40] then option_map (cons IOpen) (parse_items r)
      else if eqb c [41] then option_map (cons IClose) (parse_items r)
      else if eqb c [46] then match r with d :: r => if eqb d [42] then option_map (cons IGap) (parse_items r) else None | [] => None end
      else if special c then None
      else option_map (cons (ILit c)) (parse_items r)
  end.
Fixpoint balanced (l : list ritem) (depth : nat) : bool :=
  match l with
  | [] => depth =? 0
  | IOpen :: r => balanced r (S depth)
  | IClose :: r => match depth with 0 => false | S n => balanced r n end
  | _ :: r => balanced r depth
  end.
Definition step (b : bool) (pos : nat) (o : option (list (bool * nat) * nat)) : option (list (bool * nat) * nat) :=
  match o with Some (t, e) => Some ((b, pos) :: t, e) | None => None end.
(** match at the front of [cs], at byte [pos]: the positions of the openings ([true]) and closings, and the end *)
Fixpoint run (u : regex_crate) (l : list ritem) (cs : list text) (pos : nat) : option (list (bool * nat) * nat) :=
  match l with
  | [] => Some ([], pos)
  | IOpen :: r => step true pos (run u r cs pos)
  | IClose :: r => step false pos (run u r cs pos)
  | ILit c :: r =>
      match cs with
      | d :: cs => if eqb (fold_char u c) (fold_char u d) then run u r cs (pos + length d) else None
      | [] => None
      end
  | IGap :: r =>
      (fix gap (cs : list text) (pos : nat) : option (list (bool * nat) * nat) :=
         match (match cs with d :: q => if eqb d [LF] then None else gap q (pos + length d) | [] => None end) with
         | Some x => Some x
         | None => run u r cs pos
         end) cs pos
  end.
(** the end of the group opened just before [t] *)
Fixpoint close_of (t : list (bool * nat)) (depth : nat) : nat :=
  match t with
  | [] => 0
  | (true, _) :: r => close_of r (S depth)
  | (false, p) :: r => match depth with 0 => p | S n => close_of r n end
  end.
(** the groups, in the order of their opening parentheses *)
Fixpoint groups (t : list (bool * nat)) : list (option (nat * nat)) :=
  match t with
  | [] => []
  | (true, p) :: r => Some (p, close_of r 0) :: groups r
  | (false, _) :: r => groups r
  end.
Fixpoint search_from (u : regex_crate) (l : list ritem) (cs : list text) (pos : nat) : option (list (option (nat * nat))) :=
  match run u l cs pos with
  | Some (t, e) => Some (Some (pos, e) :: groups t)
  | None => match cs with [] => None | c :: r => search_from u l r (pos + length c) end
  end.
(** [Regex::new], [Regex::captures_read] *)
Definition regex_new (u : regex_crate) (raw : text) : option (text -> option (list (option (nat * nat)))) :=
  if negb (rx_fits u raw) then None
  else
    match (if eqb (firstn 4 raw) (str "(?i)") then parse_items (chars (skipn 4 raw)) else None) with
    | Some l => if balanced l 0 then Some (fun s => search_from u l (chars s) 0) else None
    | None => rx_other u raw
    end.

(** ** [f32]: the quotient [100.0 / n as f32], rounded to the nearest, ties to even.  A mantissa and an exponent: [m / 2^e]. *)
Definition half_even (a b : Z) : Z :=
  let q := (a / b)%Z in
  let r := (a mod b)%Z in
  if (b <? 2 * r)%Z || ((2 * r =? b)%Z && Z.odd q) then (q + 1)%Z else q.
(** [n as f32]: exact below 2^24 *)
Definition as_f32 (n : Z) : Z :=
  let k := (Z.log2 n - 23)%Z in if (k <=? 0)%Z then n else (half_even n (2 ^ k) * 2 ^ k)%Z.
Record score := mkScore { mantissa : Z; exponent : Z }.
Definition score_div (n : Z) : score :=
  let e := Z.log2_up ((2 ^ 23 * n + 99) / 100) in mkScore (half_even (100 * 2 ^ e) n) e.
Definition score_compare (a b : score) : comparison := (mantissa a * 2 ^ exponent b ?= mantissa b * 2 ^ exponent a)%Z.

(** ** menu.rs:29-37 [compute_candidate_score]; the subtraction cannot underflow since a group ends after the match starts *)
Definition compute_candidate_score (l : list (option (nat * nat))) : res score :=
  match l with
  | [] => Ok (mkScore 0 0)
  | x :: _ =>
      '(start, _) <- unwrap x "called Option::unwrap on None" ;;
      '(_, e) <- unwrap (last l None) "called Option::unwrap on None" ;;
      n <- sub (1 + e) start ;;
      Ok (score_div (as_f32 (Z.of_nat n)))
  end.

(** menu.rs:278-296: what an entry does.  The function pointers of command.rs, named. *)
Inductive action := ASub | AQuit | AViewDelete | AOpen | AScratch | AViewSelect | AViewAdd | AViewRemove | AExec.
(** menu.rs:280-286 [struct MenuEntry] *)
Record item := mkItem { it_key : text; it_label : text; it_descr : option text; it_action : action }.

(** menu.rs:39-44 [struct Candidate]; the locations when nothing matched are all unset *)
Record candidate := mkCand { ca_item : item; ca_score : option score; ca_locs : list (option (nat * nat)) }.
(** menu.rs:47-57 *)
Definition candidate_new (re : text -> option (list (option (nat * nat)))) (i : item) : res candidate :=
  match re (it_label i) with
  | None => Ok (mkCand i None [])
  | Some l => s <- compute_candidate_score l ;; Ok (mkCand i (Some s) l)
  end.
(** menu.rs:13-17 [struct Token] *)
Record token := mkTok { tk_text : text; tk_match : bool }.
(** menu.rs:63-86 [tokenize] *)
Fixpoint tokens_from (s : text) (l : list (option (nat * nat))) (last_end : nat) : res (list token) :=
  match l with
  | [] => if last_end <? length s then x <- str_slice s last_end (length s) ;; Ok [mkTok x false] else Ok []
  | None :: r => tokens_from s r last_end
  | Some (a, b) :: r =>
      x <- str_slice s last_end a ;;
      y <- str_slice s a b ;;
      z <- tokens_from s r b ;;
      Ok (mkTok x false :: mkTok y true :: z)
  end.
Definition tokenize (c : candidate) : res (list token) := tokens_from (it_label (ca_item c)) (tl (ca_locs c)) 0.
(** [PartialOrd for Option<f32>] *)
Definition opt_score_compare (a b : option score) : comparison :=
  match a, b with
  | None, None => Eq
  | None, Some _ => Lt
  | Some _, None => Gt
  | Some a, Some b => score_compare a b
  end.
(** menu.rs:100-125 [Ord], [PartialEq] *)
Definition candidate_cmp (a b : candidate) : comparison :=
  match opt_score_compare (ca_score a) (ca_score b) with
  | Eq => text_cmp (it_label (ca_item b)) (it_label (ca_item a))
  | Gt => Gt
  | Lt => Lt
  end.
(** menu.rs:148-156 [build_regex] *)
Definition raw_regex (search : text) : text :=
  str "(?i)" ++ join (str ".*") (map (fun w => str "(" ++ w ++ str ")") (split_whitespace search)).
(** menu.rs:158-170 [filter] *)
Definition filter_items (u : regex_crate) (search : text) (l : list item) : res (list candidate) :=
  re <- unwrap (regex_new u (raw_regex search)) "called Result::unwrap on Err" ;;
  cs <- mapM (candidate_new re) l ;;
  Ok (sort_by (fun a b => candidate_cmp b a) cs).

(** menu.rs:296-308 [enum Source], [struct Menu]; [who] names the provider function of command.rs *)
Inductive provider := PCommands | PFiles | PViews | PBuffersAdd | PBuffersRemove.
Inductive source := Prompt (message : text) (a : action) | Provider (who : provider).
Record menu := mkMenuM { mn_command : text; mn_title : text; mn_source : source; mn_entries : list item }.
Definition is_prompt (m : menu) : bool := match mn_source m with Prompt _ _ => true | Provider _ => false end.
(** menu.rs:353-355 [get] *)
Definition menu_get (m : menu) (key : text) : option item := find (fun i => eqb (it_key i) key) (mn_entries m).
(** menu.rs:384-400 *)
Definition shown_entry (c : candidate) : res entry :=
  ts <- tokenize c ;;
  Ok (mkEntry (it_key (ca_item c)) (map (fun t => mkFrag (tk_text t) (if tk_match t then FMatch else FDefault)) ts) (it_descr (ca_item c))).
(** menu.rs:362-409 [to_notification_params] *)
Definition menu_notification (u : regex_crate) (m : menu) (search : text) : res menu_info :=
  es <- (if is_prompt m
         then Ok (map (fun i => mkEntry (it_key i) [mkFrag (it_label i) FPrompt] (it_descr i)) (mn_entries m))
         else
           cs <- filter_items u search (mn_entries m) ;;
           mapM shown_entry (List.filter (fun c => match ca_score c with Some _ => true | None => false end) cs)) ;;
  Ok (mkMenu (mn_command m) (mn_title m) search es).
