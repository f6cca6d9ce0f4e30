(** The shape of the messages: the JSON-RPC 2.0 specification and the messages of ced's protocol (the vocabulary of C90).  It knows
    values of JSON only, not the program's types.  The names of the members are those of remote/src/jsonrpc.rs and
    remote/src/protocol.rs, which are the only documentation of the protocol. *)
From Coq Require Import String List Arith ZArith Bool.
From Verif Require Import Base Maps Json.
Import ListNotations.

Inductive shape :=
| Anything | ANull | ABool | AText | AnInt
(** an integer that is not negative *)
| ACount
(** one of these texts, of these numbers *)
| OneOf (l : list text) | Code (l : list Z)
| Either (a b : shape)
(** any array or object *)
| Structured
| ListOf (a : shape)
(** an object with these members and no other, in any order; those with [false] may be absent *)
| Members (l : list (text * (bool * shape))).
Fixpoint has (s : shape) (j : json) {struct s} : Prop :=
  match s with
  | Anything => True
  | ANull => j = JNull
  | ABool => exists b, j = JBool b
  | AText => exists x, j = JStr x
  | AnInt => exists z, j = JInt z
  | ACount => exists z, j = JInt z /\ (0 <= z)%Z
  | OneOf l => exists x, j = JStr x /\ In x l
  | Code l => exists z, j = JInt z /\ In z l
  | Either a b => has a j \/ has b j
  | Structured => exists l m, j = JArr l \/ j = JObj m
  | ListOf a => exists l, j = JArr l /\ Forall (has a) l
  | Members ms => exists l, j = JObj l /\ NoDup (map fst l) /\ incl (map fst l) (map fst ms) /\
      (fix each (ms : list (text * (bool * shape))) : Prop :=
         match ms with
         | [] => True
         | (n, (must, a)) :: r => (must = true -> In n (map fst l)) /\ (forall v, In (n, v) l -> has a v) /\ each r
         end) ms
  end.
Definition member (n : string) (a : shape) : text * (bool * shape) := (str n, (true, a)).
Definition optional (n : string) (a : shape) : text * (bool * shape) := (str n, (false, a)).
Local Open Scope string_scope.

(** ** JSON-RPC 2.0, sections 4, 4.1, 5 and 5.1 *)
Definition version : text * (bool * shape) := member "jsonrpc" (OneOf [str "2.0"]).
Definition identifier : shape := Either AnInt (Either AText ANull).
Definition rpc_request : shape := Members [version; member "id" identifier; member "method" AText; optional "params" Structured].
Definition rpc_notification : shape := Members [version; member "method" AText; optional "params" Structured].
Definition rpc_success : shape := Members [version; member "id" identifier; member "result" Anything].
Definition rpc_error : shape := Members [member "code" AnInt; member "message" AText; optional "data" Anything].
Definition rpc_failure : shape := Members [version; member "id" identifier; member "error" rpc_error].

(** ** the protocol: what the server says *)
Definition s_fragment : shape :=
  Members [member "text" AText; member "face" (OneOf [str "Default"; str "Error"; str "Match"; str "Prompt"; str "Selection"])].
Definition s_rich : shape := ListOf s_fragment.
Definition server_says : list (text * shape) :=
  [(str "echo", s_rich);
   (str "hint", Members [member "text" (ListOf s_rich)]);
   (str "info", Members [member "client" AText; member "session" AText; member "cwd" AText]);
   (str "menu", Members [member "command" AText; member "title" AText; member "search" AText;
      member "entries" (ListOf (Members [member "value" AText; member "text" s_rich; member "description" (Either AText ANull)]))]);
   (str "status", ListOf (Members [member "index" AnInt; member "text" s_rich]));
   (str "view", ListOf (Members [member "buffer" AText; member "start" ACount; member "end" ACount;
      member "lenses" (ListOf (Members [member "lines" (ListOf s_rich); member "first_line_num" ACount]))]))].
Definition said (method : text) (params : shape) : shape := Members [version; member "method" (OneOf [method]); member "params" params].
(** requests that succeed are answered null; those that fail with an error of JSON-RPC, or 1 if a script failed *)
Definition answered : shape :=
  Either (Members [version; member "id" identifier; member "result" ANull])
         (Members [version; member "id" identifier;
            member "error" (Members [member "code" (Code [1; -32600; -32601; -32602; -32603]%Z); member "message" AText; member "data" AText])]).
(** ** ... and what clients ask *)
Definition s_key : shape :=
  Either (Members [member "Char" AText]) (OneOf [str "Backspace"; str "Enter"; str "Escape"; str "Up"; str "Down"; str "Left"; str "Right"]).
Definition client_asks : list (text * shape) :=
  [(str "quit", ANull);
   (str "edit", Members [member "name" AText; member "scratch" ABool]);
   (str "menu", Members [member "command" AText; member "search" AText]);
   (str "menu-select", Members [member "command" AText; member "choice" AText]);
   (str "keys", ListOf (Members [member "ctrl" ABool; member "alt" ABool; member "shift" ABool; member "key" s_key]));
   (str "exec", AText)].
Definition asks (method : text) (params : shape) : shape :=
  Members [version; member "id" AnInt; member "method" (OneOf [method]); member "params" params].
