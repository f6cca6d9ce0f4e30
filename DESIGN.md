# Formal model of casimir/ced in Rocq (Coq 8.16.1)

The map of the verification: what is modelled, how each property is proved, what is trusted, and where the code disagrees
with what a user would expect (the `*_refuted` theorems).  Properties: `properties.jsonl`.  Theorems per property:
`MANIFEST.json`.  Sources: `rocq/theories/`.  Wrong programs tried against the theorems: `seeded/LOG.jsonl`.

How to read a property: `X.v` is the model of the code (definitions only, each citing file and lines of /repo), `XSpec.v` the
vocabulary of the statements (written without looking at the code's helpers), `XFacts.v` the proofs, `PropX.v` the property
theorems, each followed by an `Example` (or a `*Demo.v` file) showing a concrete case that meets its hypotheses, and by
`Print Assumptions`.

## 1. Modelling conventions

* **Panics are data.**  Every Rust function that can panic returns `res A` (`Ok a | Panic why | Unspec`): slice indexing out of
  bounds or off a character boundary, `unwrap` on `None`, `HashMap` indexing of an absent key, `expect`, `assert!`, `todo!`,
  explicit `panic!`, and integer overflow where the profile checks it.
* **Two profiles.**  Arithmetic of the document model goes through a `policy`: `policy_wrap` (release: `usize` subtraction wraps)
  and `policy_succ` (debug: it panics).  `Profiles.v` proves that whatever succeeds in debug is what release computes.  The
  terminal client has a flag `checked`; requests ids (`u32`) likewise.  Additions of offsets are unbounded (a document of 2^63
  bytes cannot exist).
* **`Unspec`** is returned when the code relies on a behaviour of the crate `rbtset` that its contract does not fix (a second piece
  with a key already present).  Theorems conclude `Ok`, hence prove this never happens.
* `&mut self` functions return the new value.  Loops are structural recursion or folds; where fuel is used a theorem shows that it
  is never exhausted.
* Bytes are `nat`, texts are `list nat` (UTF-8), `str "…"` turns a literal into one.  Widths, `u16` and `i32` are `Z`.
* **Nondeterminism** (order of `HashMap` iteration, of Lua's `pairs`, of hidden file order, interleaving of tasks, I/O failures,
  disk contents) is a parameter, a relation or an argument of each step; theorems quantify over it.
* **Lua** (crate rlua) is a parameter: running a chunk is an interaction tree which calls methods of the core and gets their
  answers (`Editor.script`).  Theorems about the editor and the server hold for every Lua.  `Shipped.v` gives the scripts that the
  program ships (`core/scripts/*.lua`) as a concrete instance, used by C68 and C69; `Modal.v` is `keys.lua` as data (C41).

## 2. Trusted base

* Coq 8.16.1's kernel, including `vm_compute` (used for refutation witnesses and examples).
* No axiom is declared.  Every property theorem prints *Closed under the global context* (§5).
* The faithfulness of the hand translation; each definition cites file and lines of /repo.  Evidence: `Conformance.v` runs the
  repository's own tests (unit tests, Lua scripts, integration tests; 51 examples) on the model by computation, with the values the
  tests expect, in both arithmetic profiles where that matters.  All pass.
* These contracts of code that is not in /repo, transcribed from its documentation:

| External | How it is represented |
|---|---|
| `rbtset::RBTreeSet<Piece>` | an ordered sequence; `get_node(probe)` finds the element equal to the probe, `insert` puts it at its place, `repack` merges consecutive neighbours, `clone` is deep. A *stale handle* (`PieceTable::delete` uses a node it has just removed) is decided by the policy: `stale_succ` (the in-order successor, as a CLRS deletion by key copy gives) and `stale_off` (the left-over key when there is none) |
| `bstr` graphemes | record `Graphemes`: any segmentation with positive lengths summing to the length, one byte per ASCII byte; instances `bytewise` and `utf8_graphemes` |
| `String::from_utf8_lossy`, `str::lines`, `char::is_whitespace`, `split_whitespace`, slicing | transcribed (`Utf8.v`, `Coords.v`, `Chars.v`, `Menu.v`) |
| `serde`, `serde_json` | the derived (de)serialisers at the level of JSON values, and the printer and parser of JSON (no floats, the recursion limit of 128) in `Json.v`; error texts are parameters |
| `regex` 1.5 | patterns of literals, `.*` and groups transcribed (leftmost, greedy, case folding by a parameter beyond ASCII); any other pattern and the size limit are parameters |
| `clap` 2.33 | how flags, options with values and files are read, transcribed for the four arguments of ced (`Cli.v`) |
| `HashMap` | association list; an arbitrary reordering wherever it is iterated |
| `Path`, `SocketAddr` parsing | the parts used, in `Session.v` and `Names.v` |
| `ornament::Text` | a list of fragments `{text, face}`; `text_len` a parameter, which the theorems about drawing assume (TuiSpec.v, `sane`) to be the number of bytes of printable ASCII, and at most that of other text without control characters |
| `crossterm` | commands are data; the escape sequences of styles are parameters; the terminal's meaning of a command is in `TuiSpec.v` |
| `ignore::Walk`, the file system | parameters that may change between two calls |
| async executor, sockets | one step = what a task does between two `await`s; which task runs, what arrives and which writes fail are chosen by the environment |
| `async_channel::bounded(100)` | the number of free slots, for C58 and C73 only |

**Modelled code**: `core/src/editor/**` (piece table, coordinates, diff, range, selection, buffer, view, core, menu, command, mod), `core/src/stackmap.rs`,
`core/src/server.rs`, `core/src/script.rs`, `core/src/clients.rs`, `core/src/tui.rs`,
`core/src/bin/ced.rs`, `core/scripts/*.lua`, `remote/src/{protocol,jsonrpc,keys,connection,session,client,lib}.rs`, `remote-ffi/src` (iterators, last error, event conversion),
`remote-ffi-gen/src/lib.rs` (which functions and imports are generated, their names and types).

**Not modelled**: waiting on the bounded queue while a server runs; endless Lua scripts; wrapping of
the 64-bit client counter; the log file of the terminal client; Windows transport; the operating
system's part of process spawning; what clap prints; real time.  (The FFI's raw pointers are modelled as a
heap of allocations, FfiHeap.v, C81; the generator of its functions is FfiGen.v, C77.)  One internal approximation: the line index of the model works on raw bytes (`Coords.pt_lines`) while a view's
lines come from the decoded string (`View.buf_lines`), exactly as in the code; they agree on valid UTF-8 (C60).

## 3. Properties, models and methods

| Id | Files (`theories/`) | Method |
|----|------|-----|
| C01–C03, C05, C07 | PieceTable(Spec, Facts, Edits, Delete), History(Facts), PropPiece, PropProfiles | refinement of the piece tree to a byte list (invariant: contiguous, non-empty, in bounds); simulation of undo/redo by a list of texts; debug profile via Profiles |
| C04 | PropPiece, CoreAll, PropCoreAll | invariant "cache = positions of line feeds"; every buffer of every reachable editor state; refuted after undo |
| C06 | PropPiece, PropDiff | one history entry per bulk edit |
| C08–C12 | Coords, LineSpec, LineFacts, CoordsFacts, CoordsMore, GraphemeInst, PropCoords | characterisation of the line index by `lines_of`; ASCII and any-grapheme versions; refutations on multi-byte first lines |
| C13–C15 | Diff, DiffSpec, DiffFacts, DiffApply, DiffLcs, PropDiff | greedy script over any common subsequence; dynamic programming table bounded below; refutations |
| C16–C20 | Selection, NavSpec, NavFacts, PropNav | motions specified on offsets of the text; induction on motion sequences; refutations |
| C21–C23 | PropDelete, CoreAll, PropCoreAll, CoreDelete, PropSafe | deletion as slice removal, in every reachable core state |
| C24, C25 | View, ViewSpec, ViewFacts, PropView | injectivity of the key rendering; sortedness of lens lists |
| C26, C27 | NotifFacts, PropNotif, PropNotifUtf8 | concatenation of fragments = text of the lines; faces = selected offsets |
| C28 | StackMap, PropStackMap | refinement to a map and a recency list |
| C29–C36, C61, C62 | Core, CoreSpec, CoreInv, CoreOps, PropCore; CoreTame, CoreSafe, CoreSafeMore, PropSafe; PropLog | invariant of all reachable states (any calls, clients, hash orders, disks); safety invariant for tame histories; refutations with witnesses |
| C37, C53 | Editor, EditorSpec, EditorFacts, PropEditor, EditorTame, PropEditorSafe, EditorDemo | case analysis of the dispatcher for every state and Lua; careful sessions survive |
| C38, C39, C57 | Json, JsonFacts, Proto, ProtoFacts, PropProto | printing then parsing is the identity, by induction on values |
| C40, C41 | Keys, PropKeys; Modal, PropModal | inverse on the exact domain; state machine against a documentation table |
| C42–C44, C64 | Server, ServerSpec, ServerFacts, PropServer, ServerTame, PropServerSafe, ServerDemo | invariants of a labelled transition system, all interleavings |
| C45–C47 | Payload, Conn, PropConn | mirror invariant over any mix of events and calls |
| C48–C50 | Session, Names, Chars, Normalize and their Prop files | direct proofs on paths and characters; refutations |
| C51, C52 | Menu, MenuSpec, MenuFacts, MenuMatch, PropMenu | matcher proved leftmost-longest against a declarative occurrence; sorted filter |
| C54, C55, C63 | Ffi, PropFfi | iteration by induction; error cell protocol; event conversion |
| C56, C65–C67 | Tui, TuiSpec, TuiFacts, PropTui, PropTuiMenu, PropTuiKeys, PropTuiScreen, TuiDemo | the commands drawn are rendered by an independent terminal; transition system of the client |
| C58 | Standalone, PropStandalone, StandaloneDemo | exact counting of the notifications sent at start-up |
| C59 | Range, PropRange | arithmetic |
| C60 | Utf8, Utf8Spec, Utf8Facts, PropUtf8 | validity invariant over edit histories |
| C68 | Shipped, PropShipped, PropTyping | the shipped scripts as an instance of the editor's Lua; composition of C37, C41 and the core |
| C69 | Shipped, PropHint | widths of the framed lines |
| C70 | Script, PropScript | induction on the list of scripts |
| C71 | Daemon, PropDaemon | transition system of processes on the socket directory (`remote/src/lib.rs` start_daemon and ensure_session, `session.rs`, the bind and the clean-up of `server.rs`); shape and rank invariants |
| C72 | FreshSpec, PropFresh, SoloSpec, PropSolo | each operation either leaves what a client sees and was shown alone, or ends with a notification to it; composed over calls; witnesses for the five kinds of calls that miss a client; for a whole server with the shipped scripts and one client, an invariant over all runs (no buffer is empty, files are never reloaded) discharges every exception: C72_one_client |
| C73 | StandLoop, PropStandLoop, StandLoopDemo | transition system of the two threads of `start_standalone`; invariant that relates what was read, answered, queued and printed; termination by a rank |
| C74 | Relay, RelayFacts, PropRelay | transition system of the relay; what the JSON reader accepts is shown to be printable and to read back the same (induction on the reader); composition with `handle` |
| C75 | PropShown, System, SystemSpec, SystemFacts, PropSystem, SystemDemo | product of the server's transition system and any number of clients over byte streams; invariant relating what was written, read and shown; composes C44, C45, C57, C64 and C72; progress by induction on what is left to read |
| C76 | Daemon (`lists`), PropList | the list against the processes in every reachable state of C71's system; witnesses for crashes and servers started by hand |
| C77 | FfiGen, PropFfiGen | induction on the configuration; snake case is injective on camel-case names; the types a C program can reach as an inductive closure |
| C78 | Stream, PropStream, StreamDemo | the system of C75 with sockets of a fixed size: the server writes line by line, byte by byte, and does nothing else while it has something to write; refinement to the system of C75 with byte accounting, measure on what is left to write, stall proved stable |
| C79 | Terminal, TerminalSpec, PropTuiFinal, PropTerminal, TerminalDemo, PropOneUser, OneUserDemo, PropText, TextDemo | the product of the system of C75 and the terminal client of C67: every run projects to a run of each, with the same messages (C79_program); C67_screen gives the whole painted screen once the queue is empty; the two meet in C79_screen; C79_one_user removes its hypothesis on notifications for one user with the shipped scripts, by C72_one_client and C65 (no key he types sends a script); C79_text composes that with C26 on texts, so that the screen is stated from the buffers alone, without notifications |
| C80 | FileSpec, PropFile, PropCedFile, CedFileDemo | the last edit request of the terminal client names the last FILE (asked_files); an invariant of the server (opens) says that client 1's view becomes the whole of that file and that only later requests of its own change it; composed with C79_one_user and C33 (the buffer has the file's text). Assumes no key was typed, nobody writes the file and a screen at least wide enough for the title; that the state at rest is reached is not claimed |
| C81 | FfiHeap, PropFfiHeap | a heap of boxes with an arbitrary allocator that may reuse addresses; ghost list of the handles the program was given and has not destroyed; invariant: the typed addresses of the heap are a permutation of it; contents agree with the conversions of Ffi.v (C54, C63) |
| C82 | MenuOpen, MenusSpec, PropMenus, MenusDemo | what is offered is an inductive relation on the core and the file system; an empty search matches everything with one score, so that sorting is by label; history invariant `ei_opened`: the entries an editor holds for a menu are those it last sent for an empty search; searching is then C52 over that list |
| C83 | FileSyncSpec, FileSync, PropFileSync | per-name invariant of the buffers over all calls (where it comes from, when it was read), for a file system and clock that change arbitrarily between calls; reloading composed with C14 |
| C84 | JsonSpec, JsonSpelling, PropJson | the grammar of RFC 8259 with its meaning, written without the reader; soundness and completeness of the reader by mutual induction, for every fuel and depth; decoding respects reordering of members; UTF-8 of strings through escapes. serde_json itself is transcribed (trusted base): this shows that the transcription is JSON |
| C85 | Place, PropPlace | directories laid over the machine of C71 (a server runs where the process that started it runs); invariant that a starting client gets onto its own server; composed with C83's lookup of names; refuted for shared sessions |
| C86 | Wire, WireSpec, PropWire | the bytes of a connection as pieces and an end; lines as the library splits them; the framing is independent of the pieces; a proper beginning of a JSON object is never JSON (C84's spelling relation), so what is left of a message is refused (C37) |
| C87 | Tty, PropTty | the terminal as a device (mode, two screens, cursor), the client's start, its end by return or unwinding and its destructor; every failure is an oracle; what is drawn comes from the runs of Tui.v; refuted for what a panic says and for signals |
| C88 | PropFileNames | the states of Core.v, histories classified by the names files are edited under; one buffer per file as long as no two of the names lead to one file (all relative names, all absolute ones); refuted otherwise: what is deleted under one name stays under the other |
| C89 | CliSpec, PropCli | `main`'s arguments and the part of clap 2.33 they use as a function from argument lists to what is run; a small grammar of spellings (`spelt`, `line`) says what a line asks for; the two are equal in both directions, and what `start_daemon` passes is understood; refuted for a session name that begins with an equal sign |
| C90 | ShapeSpec, PropShape, ShapeDemo | a language of shapes of JSON values (`has`), with the messages of JSON-RPC 2.0 and of the protocol written down in it; every message of a run of the server (Server.v) and every request of a run of the system (System.v) is printed from a value of one of those shapes; refuted for the parameters of `exec` and `quit`, which are neither array nor object |
| C91 | RequestSpec.v: `means` (the change a request asks for), the reasons, what else must stay; theorems over Editor.v in PropRequest.v (C91_does, C91_fails, C91_view, C91_exec, C91_keys, C91_keys_failing), for all states, worlds, scripts and lines; demo in RequestDemo.v |

A property is *partial* in the manifest either because the full statement is false of the code (then a `*_refuted` theorem gives the
witness and the `*_partial` theorem the part that holds) or because a class of inputs named in the note is missing.

## 4. Disagreements between the properties and the code (findings)

Document model
1. `undo`/`redo` do not restore the newline cache (C04).
2. A deletion that ends on piece boundaries goes on with the handle of a removed node; deleting up to the end of the document then panics in
   debug; a zero-length deletion panics; appending the empty text puts two pieces at one offset (C01).
3. `diff`: with a common prefix and no (or as long a) common suffix everything after the prefix is ignored ("abcX" → "abcY" gives no change, a
   file with lines appended is not reloaded); an empty middle underflows; one unmatched trailing byte is forgotten; runs of bytes may split a
   character and panic (C13, C14).  A reload can leave a buffer empty (C23).
4. `find_lcs` is not longest ("aZqbZ"/"abZ"), by at most one byte (C15).
5. Columns are counted in bytes on the first line and on line feeds: the round trip fails and moves panic there (C09, C10).
6. `line_length` answers the document's length without a line feed and underflows at index 0; `char_at` panics at column 0 and past the end
   (C11, C12); `lines()` drops the CR that `line_bytes()` keeps (C08).
7. `Navigator::next` advances by one byte (C16); `line_end` on an empty line panics (C18); vertical moves to a shorter unterminated last line panic
   (C19); after `delete_selection` the remembered column is stale, so *right* at the end moves left (C16).
8. Deleting a multi-byte character removes nothing or part of it (C21); deleting the last byte twice panics, selections of other clients and of other
   views are not clamped (C22).

Core
9. View keys collide for names with `{` (C24); the header of a view need not cover all its lenses (C25); the highlight of a range lens is misaligned and
   that of CR LF text is off (C27); the header of an empty buffer says one line and shows none; a character cut by a lens is shown as replacement
   characters (C60).
10. `Core::view(buffer name)` bypasses the recency stack: the view cannot be deleted, and has no selections, so moving in it panics (C29, C36).
11. Deleting the last view, or one that shows `*debug*` with a buffer shown nowhere else (the first `view-delete` of a session), panics (C36).
12. `view-remove` keeps selections of the removed buffer: a deletion then edits the hidden buffer, and a move panics once it is dropped (C21, C36).
13. A view change that produces the key of an existing view overwrites the selections of all its clients (C32).
14. A client joining after all others left has no selections in the other views (C36).  Editing an unreadable file panics; replacing a shown scratch
    buffer by a shorter one panics later (C36).

Protocol and editor
15. A success carries `"result":null`, which decodes as neither success nor error: `result()` panics (C38).
16. Key notation: capitals are lost; Enter, Backspace and arrows panic (C40).
17. Request ids wrap after 2^32 in release (C47).
18. Menu search `(` panics the server for all clients; `(a)` and `a)|(b` panic while tokenizing; words on different lines do not match; very long
    searches exceed the regex limit (C51, C52, C37).  An empty menu makes choosing panic in the client (C46).  Prompts refuse every choice
    until their menu was opened once (C53).
19. Shortest names: a path that ends another panics (`/f`, `/a/f`) (C49).
20. Session names: with a directory, empty, `.` or `..` daemon and client disagree; `@host:port` crashes the client (C48); a name with a quote or a
    backslash is spliced into Lua source and every key is refused (C68).

Server and clients
21. A client that quits and disconnects crashes the server; the last client's *quit* does not stop it; a failing write of an answer or a failing accept
    panics; the server may stop with an accepted connection still queued (C42).  Notifications pending when a client leaves are lost (C44).
22. `StdioClient` writes events without separators (C57).
23. Standalone: with about a hundred files the bounded queue is full before its reader exists and the program hangs (C58).
24. FFI: NUL bytes panic, a too small error buffer loses the message, hints and responses hit `todo!()` (C54, C55, C63).
25. Terminal: the header panics when the name is wider than the screen minus 8; the status line panics when echo and status fill the row; a header on
    the last row scrolls the screen; byte-wise cuts split characters and escape sequences; long echos wrap; long menu titles panic; menus do not
    scroll; an empty hint panics, a wide or high one panics in debug (C56).
26. Outside menus Enter, Backspace, Tab and arrows are dropped and Ctrl-X panics (C65); fast typing in a menu loses characters, a late answer reopens a
    cancelled menu (C66); a view or echo notification hides the open menu (C67); error messages of the connection are run as Lua unquoted.
27. Hint boxes: the first row sticks out by two when the title is longest; padding counts bytes (C69).  Script mode: a second `-` reads nothing (C70).
28. Sessions: a crashed server leaves its socket, and the session stays unusable until the file is removed or a server is run by hand; the error of a
    failed bind is dropped, so a second server (two clients racing, or by hand) removes the running server's socket when it ends; a client that
    connects while the last one leaves is never served; a server that stops removes the directory under another that is about to bind (C71).
29. Displays: deleting text notifies only the client that deletes; replacing a scratch buffer, opening a buffer another client looks at without a
    cursor, and changing a view into one that another client looks at leave that client's display outdated; a client that joins while the latest
    client looks at a file is shown nothing until it asks for a view (C72).
30. Standalone mode: notifications still queued when the input ends are lost; `quit` disconnects the client but does not end the program, and the
    next request to open a file panics (C73).
31. Relay mode: messages are written without a separator; the answer to a request that succeeded is relayed with neither result nor error; the end
    of standard input does not end the program; requests still queued when the server ends are lost (C74).
32. A client that joins and reads everything displays nothing, whatever its view shows, until something is sent to it (C75; the cause is C72's).
33. `ced -l` goes on listing a session whose server crashed, and a session in use vanishes from it when a second server is run by hand (C76).
34. The C interface has no function for the iterators of a lens's lines and of a menu's entries: a C program can neither read nor free them; a type
    and the same with the prefix's name before it would get the same functions (C77).
35. A selected character of more than one byte on the second or a later line is not highlighted at all (C27).
36. A client that stops reading brings the whole server to a halt, for every client, with one request that has a long answer (C78): `write_client` blocks
    (`block_on(write_all)`) on the only thread that handles events.
37. Reloading can empty a buffer (C14_emptied_refuted): the file's new content is a single character that does not occur in the old text; the script deletes
    the old text and drops the one-byte insertion.  What is shown of an emptied buffer is then not updated by a deletion (C72), which is why
    C72_one_client and C79_one_user assume that nobody else writes the files during the session.
38. The C interface has no function to free a string (nor a menu's entries or a lens's lines): every string it ever handed over stays allocated; four are
    lost by asking for the version, two for each fragment of text (C81).
39. The entries of a menu are shared by all clients and are refreshed only by an empty search: a search shows the entries as of the last time anybody
    opened that menu, and a menu that nobody has opened yet finds nothing, whatever there is to find (C82).
40. The time at which a file was read is taken after reading it: a write between the two counts as read, and its content is never shown until the file is
    written once more (C83_race_refuted).
41. A client that finds its session running has its relative FILEs looked up in the directory of the client that started the session, not in its own: another file
    of that name is shown, or, if there is none, the server panics and everybody loses the session (C85_shared_refuted).
42. A client panics when its connection is reset, and when the server closes it in the middle of a character (client.rs:45, with a TODO): what it should
    report as a lost connection ends it. C86_refuted; the whole messages that arrived before are still taken (C86_messages_cut).
43. The terminal client's panics are printed on the screen that is then taken away: nobody sees why it ended; and when the server is gone it ends as if the user
    had asked it to, successfully and without a word (C87_silent_refuted, C87_endings). A signal leaves raw mode, the other screen and no cursor (C87_signal_refuted).
44. A file opened under two names (`f` and `/w/f`) has two buffers: what one client deletes the other still sees, and editing the file again does not bring them together (core.rs:417 has the TODO).
45. A session whose name begins with an equal sign cannot be started: `ced -s =x` asks for the session `=x`, but starts its server with `--session==x`, which
    the parser reads as the session `x`; the client then waits for one that nobody serves (C89_equals_refuted).
46. The requests `exec` and `quit` are not requests of JSON-RPC 2.0: their parameters are a text and null, where section 4.2 has only arrays and objects. A server that is strict about it
    refuses them (C90_refuted). All other messages conform (C90_rpc_said, C90_rpc_asked_partial).

## 5. Assumptions printed

`Print Assumptions` follows every property theorem in the `Prop*.v` files; each prints *Closed under the global context*: no axiom, of the
standard library or of any other, is used.  `vcheck` also lists axioms of `Coq.ssr.ssrunder` (`Under_rel` and its six fields): they belong to a
library module that is merely loaded by `Lia`/`ssreflect` support and occur in no theorem.
