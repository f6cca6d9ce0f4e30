(** Model of the session addresses, remote/src/session.rs:10-84, and of the argument handed to a spawned daemon,
    remote/src/lib.rs:46-49 and core/src/bin/ced.rs:84-87.  Unix only.  Definitions only. *)
From Coq Require Import String List Arith Bool.
From Verif Require Import Base Maps Fmt Keys Chars.
Import ListNotations.

(** ** Rust standard library: paths as texts *)
Fixpoint split_on (c : nat) (s : text) : list text :=
  match s with
  | [] => [[]]
  | x :: r => if x =? c then [] :: split_on c r else match split_on c r with g :: gs => (x :: g) :: gs | [] => [[x]] end
  end.
(** [Path::is_absolute] *)
Definition absolute (p : text) : bool := match p with 47 :: _ => true | _ => false end.
(** [PathBuf::push] *)
Definition push (root name : text) : text :=
  if absolute name then name
  else match rev root with [] => name | 47 :: _ => root ++ name | _ => root ++ [47] ++ name end.
(** [Path::components], without the root and with a leading "." dropped like the others *)
Definition components (p : text) : list text := filter (fun c => negb (eqb c [] || eqb c [46])) (split_on 47 p).
(** [Path::file_name] *)
Definition path_file_name (p : text) : option text :=
  match rev (components p) with [] => None | c :: _ => if eqb c [46; 46] then None else Some c end.

(** ** session.rs:10-13: the pattern [^@(?P<address>\w+|\d+\.\d\.\d+\.\d+)?:(?P<port>\d+)$].
    The crate's [\w] and [\d] are Unicode aware: which characters beyond ASCII they contain is a parameter. *)
Record classes := { u_word : text -> bool; u_digit : text -> bool }.
Definition re_digit (u : classes) (c : text) : bool := match c with [b] => digit b | _ => u_digit u c end.
Definition re_word (u : classes) (c : text) : bool :=
  match c with [b] => digit b || ((65 <=? b) && (b <=? 90)) || ((97 <=? b) && (b <=? 122)) || (b =? 95) | _ => u_word u c end.
Definition re_digits (u : classes) (s : text) : bool := negb (eqb s []) && forallb (re_digit u) (chars s).
Definition re_words (u : classes) (s : text) : bool := negb (eqb s []) && forallb (re_word u) (chars s).
Definition re_dotted (u : classes) (s : text) : bool :=
  match split_on 46 s with
  | [a; b; c; d] => re_digits u a && (re_digits u b && (length (chars b) =? 1)) && re_digits u c && re_digits u d
  | _ => false
  end.
(** the captured address and port; no alternative of the pattern contains a colon *)
Definition captures (u : classes) (s : text) : option (option text * text) :=
  match s with
  | 64 :: r => match split_on 58 r with
               | [a; p] => if re_digits u p
                           then if eqb a [] then Some (None, p) else if re_words u a || re_dotted u a then Some (Some a, p) else None
                           else None
               | _ => None
               end
  | _ => None
  end.
(** session.rs:27-29 *)
Definition is_tcp (u : classes) (s : text) : bool := match captures u s with Some _ => true | None => false end.

(** ** Rust standard library: [SocketAddr], IPv4 only (an IPv6 address needs brackets, which the pattern refuses) *)
Record addr := { octets : list nat; port : nat }.
Definition octet (g : text) : option nat :=
  if negb (eqb g []) && forallb digit g && (length g <=? 3) && (eqb g [48] || negb (eqb (firstn 1 g) [48])) && (value g <? 256)
  then Some (value g) else None.
(** 65536 *)
Definition ports := 256 * 256.
Definition parse_port (p : text) : option nat :=
  if negb (eqb p []) && forallb digit p && (value p <? ports) then Some (value p) else None.
Definition parse_addr (s : text) : option addr :=
  match split_on 58 s with
  | [a; p] => match map octet (split_on 46 a), parse_port p with
              | [Some w; Some x; Some y; Some z], Some q => Some {| octets := [w; x; y; z]; port := q |}
              | _, _ => None
              end
  | _ => None
  end.
Definition show_addr (a : addr) : text := join [46] (map dec (octets a)) ++ [58] ++ dec (port a).

(** ** session.rs:20-24 [enum ConnectionMode] *)
Inductive mode := Socket (path : text) | Tcp (a : addr).
(** session.rs:33-41 [Display] *)
Definition show_mode (m : mode) : res text :=
  match m with
  | Socket p => unwrap (path_file_name p) "called Option::unwrap on None"
  | Tcp a => Ok ([64] ++ show_addr a)
  end.
(** session.rs:45-61 [FromStr] *)
Definition parse_mode (u : classes) (s : text) : res mode :=
  match captures u s with
  | Some (a, p) =>
      let a' := match a with Some a => a | None => str "127.0.0.1" end in
      r <- unwrap (parse_addr (a' ++ [58] ++ p)) "invalid address" ;; Ok (Tcp r)
  | None => Ok (Socket s)
  end.
(** session.rs:75-86 [Session::from_name]; [root] is what [build_root] (69-73) computes from the environment, which the
    daemon inherits *)
Definition from_name (u : classes) (root name : text) : res mode :=
  parse_mode u (if is_tcp u name then name else push root name).
(** lib.rs:46-49: the argument; ced.rs:56-60,84-87: what the daemon reads.  The crate clap drops the equal signs at the
    beginning of a value joined to its option (Cli.v). *)
Definition session_arg (m : mode) : res text := s <- show_mode m ;; Ok (str "--session=" ++ s).
Definition clap_value (arg : text) : text := drop_while (fun b => b =? 61) (skipn (length (str "--session")) arg).
(** the address the daemon listens on *)
Definition daemon (u : classes) (root : text) (m : mode) : res mode :=
  arg <- session_arg m ;; from_name u root (clap_value arg).
