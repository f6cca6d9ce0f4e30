{"id": "C01", "title": "Editing a document behaves like editing a plain string", "statement": "Starting from a document holding any non-empty text, after any sequence of append/insert/delete/replace calls the document's text is exactly the text obtained by performing the same edits on a plain byte string: append concatenates, insert splices before the byte at the offset (or appends when the offset is at or past the end), delete removes the bytes of the range that exist, replace does both. None of these calls panics.", "quantifier": "every initial text, every finite sequence of edits with arbitrary offsets, lengths and non-empty texts", "why_tests_cant": "the piece layout depends on the whole edit history; unit tests fix a handful of histories", "anchors": ["core/src/editor/piece_table/mod.rs: PieceTable::{with_text,new,append,insert,delete,replace,text}, Piece::{split,truncate}"]}
{"id": "C02", "title": "Range reads return exactly the requested slice", "statement": "For any document reachable by edits, reading the range [a,b) returns nothing when a is past the end, and otherwise exactly the bytes of the text from a (inclusive) to min(b, length) (exclusive), however the text is split internally.", "quantifier": "every reachable document and every range a<=b", "why_tests_cant": "depends on how the range falls on internal piece boundaries", "anchors": ["core/src/editor/piece_table/mod.rs: PieceTable::{range,text_range}, Piece::ranged"]}
{"id": "C03", "title": "Reported length, emptiness and last offset agree with the text", "statement": "After any sequence of edits the reported length equals the number of bytes of the text, the document reports empty iff its text is empty, and the maximum offset is length-1 (0 for the empty document).", "quantifier": "every reachable document", "why_tests_cant": "offset shifting bugs only show on particular histories", "anchors": ["core/src/editor/piece_table/mod.rs: PieceTable::{len,is_empty,max_offset}"]}
{"id": "C04", "title": "The line index is always accurate", "statement": "After any sequence of append/insert/delete/replace, the cached set of newline positions is exactly the set of offsets at which the text has a newline byte. (Expected to hold after undo/redo as well.)", "quantifier": "every reachable document, every edit history", "why_tests_cant": "cache coherence over unbounded histories", "anchors": ["core/src/editor/piece_table/mod.rs: newlines field, append/insert/delete, undo/redo"]}
{"id": "C05", "title": "Undo and redo walk a linear history of texts", "statement": "Undo brings back the text as it was before the latest run of same-kind edits, redo brings back the text that was undone, an edit after undo discards the redo branch, undo/redo report false and change nothing when there is nothing to undo/redo. Undoing n times then redoing n times restores the text exactly.", "quantifier": "every interleaving of edits, bulk edits, undo and redo", "why_tests_cant": "history-dependent", "anchors": ["core/src/editor/piece_table/mod.rs: PieceTable::{commit,action,undo,redo}"]}
{"id": "C06", "title": "A bulk edit is one undo step", "statement": "Whatever the edits inside a replace (or a diff application), a single undo afterwards restores exactly the text before it.", "quantifier": "every reachable document and every replacement", "why_tests_cant": "quantifies over all inner edits", "anchors": ["core/src/editor/piece_table/mod.rs: start_bulk,end_bulk,replace,apply_diff"]}
{"id": "C07", "title": "Compaction never changes the document", "statement": "Merging adjacent fragments (done on every new undo step) leaves text, length and every range read unchanged, and never leaves two mergeable neighbours.", "quantifier": "every reachable document", "why_tests_cant": "quantifies over all fragment layouts", "anchors": ["core/src/editor/piece_table/mod.rs: commit (repack), Consecutive for Piece"]}
{"id": "C08", "title": "Line access returns the lines of the text", "statement": "The line count is the number of newline-terminated lines plus one for an unterminated tail; line n (1-based) is exactly the n-th line without its terminator, and asking for line 0 or a line past the end yields nothing; the list of all lines has that many elements for a non-empty document.", "quantifier": "every reachable non-empty document, every line number", "why_tests_cant": "depends on all texts and layouts", "anchors": ["core/src/editor/piece_table/mod.rs: line_count,line_bytes,line_text,lines"]}
{"id": "C09", "title": "Offset and coordinate conversions compute line/column positions", "statement": "For ASCII documents the coordinates of offset o are (1 + newlines before o, 1 + distance to the start of its line), and the offset of coordinates (l,c) is the start of line l plus c-1; out of range inputs yield nothing. For arbitrary Unicode text the column of an offset on any line counts the user-perceived characters up to it.", "quantifier": "every document, every offset and coordinate pair", "why_tests_cant": "all texts, all positions", "anchors": ["core/src/editor/piece_table/mod.rs: offset_to_coord,coord_to_offset,max_coord"]}
{"id": "C10", "title": "Offset/coordinate round trip", "statement": "Converting the offset of a character to coordinates and back gives the same offset, and converting the coordinates of a character to an offset and back gives the same coordinates.", "quantifier": "every document and every character position", "why_tests_cant": "all texts, including multi-byte ones", "anchors": ["core/src/editor/piece_table/mod.rs: offset_to_coord,coord_to_offset"]}
{"id": "C11", "title": "Character lookup returns the character at a position", "statement": "Looking up the character at an offset inside the document returns the character that starts there; looking up coordinates of an existing character returns that character and never panics; coordinates outside the document yield nothing.", "quantifier": "every document and position", "why_tests_cant": "all texts and positions", "anchors": ["core/src/editor/piece_table/mod.rs: char_at_offset,char_at"]}
{"id": "C12", "title": "Line lengths", "statement": "line_length(n) is the byte length of line n without its terminator for every existing line and 0 for lines past the end; the longest line reported is an existing line whose length is maximal (and (0,0) when all lines are empty).", "quantifier": "every document with an accurate line index, every n", "why_tests_cant": "all texts", "anchors": ["core/src/editor/piece_table/mod.rs: line_length,longest_line"]}
{"id": "C13", "title": "A computed diff transforms the left text into the right text", "statement": "Applying the edit script computed for (left,right) to left - deleting Left runs, inserting Right runs taken from right, keeping Both runs - yields right; computing the script never panics.", "quantifier": "every pair of byte strings", "why_tests_cant": "quadratically many shapes of common prefix/suffix/subsequence; the two existing tests miss the failing shapes", "anchors": ["core/src/editor/diff.rs: diff,precompute,find_lcs"]}
{"id": "C14", "title": "Reloading a buffer makes it equal to the file", "statement": "When a file changed on disk and is edited again, the buffer's text becomes exactly the file's content, as one undoable step.", "quantifier": "every buffer content and every file content", "why_tests_cant": "all pairs of texts", "anchors": ["core/src/editor/buffer.rs: load_from_disk", "core/src/editor/piece_table/mod.rs: apply_diff"]}
{"id": "C15", "title": "The subsequence used for diffs is common to both texts and longest", "statement": "The subsequence computed from two non-empty byte strings is a subsequence of both, and no common subsequence is longer.", "quantifier": "every pair of non-empty byte strings", "why_tests_cant": "all pairs", "anchors": ["core/src/editor/diff.rs: find_lcs"]}
{"id": "C16", "title": "Left and right moves step by one character", "statement": "In an ASCII document ending with a newline, moving right from offset o lands on min(o+1,last) and moving left lands on o-1 (or stays at 0), crossing line boundaries.", "quantifier": "every such document and cursor", "why_tests_cant": "all positions of all texts", "anchors": ["core/src/editor/piece_table/navigator.rs: next,previous,pos", "core/src/editor/core.rs: move_cursor"]}
{"id": "C17", "title": "Vertical moves keep a sticky column", "statement": "Moving up/down lands on the adjacent line (or stays on the first/last), at the remembered column clamped to the position of the line's newline, and the remembered column is unchanged by vertical moves; so going through a shorter line and back returns to the original column.", "quantifier": "every ASCII document ending with a newline, every cursor, any number of vertical moves", "why_tests_cant": "history of moves", "anchors": ["core/src/editor/piece_table/navigator.rs: next_line,previous_line,pos", "core/src/editor/core.rs: move_cursor"]}
{"id": "C18", "title": "Jumps go to the document and line boundaries", "statement": "Begin goes to offset 0, End to the last offset, line-begin to the first offset of the current line, line-end to the last character of the current line; all succeed on every line.", "quantifier": "every document and cursor", "why_tests_cant": "all lines, including empty ones", "anchors": ["core/src/editor/piece_table/navigator.rs: begin,end,line_begin,line_end"]}
{"id": "C19", "title": "Cursor motion never crashes and never leaves the document", "statement": "From any valid cursor, any sequence of motions succeeds and keeps the cursor on an existing byte of the buffer.", "quantifier": "every document, every finite sequence of motions", "why_tests_cant": "unbounded histories", "anchors": ["core/src/editor/piece_table/navigator.rs", "core/src/editor/core.rs: move_cursor"]}
{"id": "C20", "title": "The selected text is the text from one end of the selection to the other, inclusive", "statement": "For a selection whose ends lie inside an ASCII document, the selection's range is from its smaller end to just after its larger end, regardless of direction, and the selected text is that slice.", "quantifier": "every document and selection", "why_tests_cant": "all positions and both directions", "anchors": ["core/src/editor/buffer.rs: selection_range", "core/src/editor/selection.rs: begin,end", "core/src/editor/core.rs: get_selected_text"]}
{"id": "C21", "title": "Deleting the selection removes exactly the selected text and returns it", "statement": "For a client with one selection per buffer, delete-selection removes exactly the selected slice from each buffer of its view, returns the removed texts, and leaves every other buffer untouched.", "quantifier": "every editor state", "why_tests_cant": "all buffers, all selections", "anchors": ["core/src/editor/core.rs: delete_selection"]}
{"id": "C22", "title": "Selections stay inside their buffer after a deletion", "statement": "After delete-selection every selection of the acting client (and of every other client viewing the buffer) designates existing offsets of the buffer.", "quantifier": "every editor state, any number of clients", "why_tests_cant": "multi-client histories", "anchors": ["core/src/editor/core.rs: clamp_selections,delete_selection", "core/src/editor/selection.rs: clamp_to"]}
{"id": "C23", "title": "A buffer shown to a client is never empty", "statement": "Opening a scratch buffer or a file and any sequence of selection deletions leave the buffer with at least one byte.", "quantifier": "every history of open/append/delete-selection", "why_tests_cant": "unbounded histories", "anchors": ["core/src/editor/buffer.rs: new_scratch,new_file", "core/src/editor/core.rs: delete_selection"]}
{"id": "C24", "title": "A view key identifies the view", "statement": "Two views have the same key only if they show the same buffers with the same focuses.", "quantifier": "every pair of views, every buffer name", "why_tests_cant": "string ambiguity over all names", "anchors": ["core/src/editor/view.rs: View::key"]}
{"id": "C25", "title": "Lenses of a buffer are shown in document order", "statement": "However lenses are added, the lenses of each buffer are kept sorted by focus (ranges by start then end, whole last), no lens is lost or duplicated, buffers are listed in name order, and the header range covers from the first start to the last end.", "quantifier": "every sequence of lens additions/removals", "why_tests_cant": "all insertion orders", "anchors": ["core/src/editor/view.rs: LensGroup::add,focus, View::{add_lens,remove_lens_group,buffers,as_vec}, Ord for Focus"]}
{"id": "C26", "title": "A view notification faithfully shows the buffers", "statement": "The view notification contains one item per buffer of the view in name order; for a whole-buffer lens the lines are exactly the buffer's lines (each followed by one blank cell), numbered from 1 to the buffer's line count.", "quantifier": "every view over existing buffers", "why_tests_cant": "all texts and views", "anchors": ["core/src/editor/view.rs: to_notification_params"]}
{"id": "C27", "title": "Highlighting marks exactly the selected characters", "statement": "In a view notification, a cell is highlighted iff its offset lies in one of the client's selections of that buffer (the blank cell at the end of a line standing for its newline).", "quantifier": "every ASCII buffer and set of selections", "why_tests_cant": "all positions, single and multi-line selections", "anchors": ["core/src/editor/view.rs: to_notification_params"]}
{"id": "C28", "title": "StackMap is a map with a most-recent-first order", "statement": "After any sequence of insert/set_last/remove, lookups agree with a plain map, the order lists each key exactly once, latest is the most recently inserted or re-selected key still present, set_last fails without effect on absent keys.", "quantifier": "every operation sequence", "why_tests_cant": "unbounded histories", "anchors": ["core/src/stackmap.rs: StackMap"]}
{"id": "C29", "title": "Every registered view can be deleted", "statement": "Any view that the editor lists can be deleted (by a client viewing it) without crashing the editor.", "quantifier": "every reachable editor state", "why_tests_cant": "depends on how the view was created", "anchors": ["core/src/editor/core.rs: view,delete_view", "core/src/stackmap.rs: Deref/DerefMut, remove"]}
{"id": "C30", "title": "The current view of every client is a registered view stored under its own key", "statement": "In every state reachable by client requests, every registered view is registered under its own key and every connected client's current view has the key of a registered view.", "quantifier": "every sequence of requests by any clients", "why_tests_cant": "unbounded multi-client histories", "anchors": ["core/src/editor/core.rs: add_client,add_view,delete_view,modify_view,edit,view"]}
{"id": "C31", "title": "Views only show existing buffers", "statement": "In every reachable state every buffer mentioned by a registered view exists.", "quantifier": "every sequence of requests", "why_tests_cant": "unbounded histories; deletion cascades", "anchors": ["core/src/editor/core.rs: delete_view,add_view,edit,view"]}
{"id": "C32", "title": "Clients do not disturb each other", "statement": "A request from one client never changes another client's selections in views that are not deleted or renamed by it, and never changes another client's current view unless that view is deleted or modified.", "quantifier": "every state, every request", "why_tests_cant": "multi-client frame property", "anchors": ["core/src/editor/core.rs: edit,view,move_cursor,delete_selection,delete_view"]}
{"id": "C33", "title": "Edit opens the named buffer and shows it", "statement": "After a scratch edit request the buffer exists (unchanged if it already existed), the whole-buffer view on it is registered and is the current view of the requesting client, and that client is notified.", "quantifier": "every state, every name", "why_tests_cant": "all states", "anchors": ["core/src/editor/core.rs: edit"]}
{"id": "C34", "title": "Deleting a view drops exactly the buffers no other view shows", "statement": "After a successful view deletion the view is gone, every buffer still shown by another view is kept unchanged (the debug log aside), buffers shown only by it are dropped, and the clients that displayed it display the most recently used remaining view.", "quantifier": "every state", "why_tests_cant": "all reference patterns", "anchors": ["core/src/editor/core.rs: delete_view"]}
{"id": "C35", "title": "Requests naming unknown views or buffers are refused without effect", "statement": "view, view-add and view-remove with an unknown name answer an error and leave buffers, views, selections and current views unchanged.", "quantifier": "every state, every unknown name", "why_tests_cant": "all states", "anchors": ["core/src/editor/core.rs: view,add_to_current_view,remove_from_current_view,delete_view"]}
{"id": "C36", "title": "Client requests do not crash the editor", "statement": "No request from a connected client makes the editor panic.", "quantifier": "every reachable state and request", "why_tests_cant": "unbounded histories", "anchors": ["core/src/editor/core.rs", "core/src/editor/mod.rs: Editor::handle"]}
{"id": "C37", "title": "Every request line gets exactly one correctly addressed answer", "statement": "Each line received yields exactly one response; if it is a request its id is echoed; unparsable lines get id null and code -32600; unknown methods get -32601; a missing params member gets -32600 and ill-typed params -32602, in both cases without executing the command.", "quantifier": "every line, every editor state", "why_tests_cant": "all inputs", "anchors": ["core/src/editor/mod.rs: Editor::handle", "remote/src/jsonrpc.rs: response!"]}
{"id": "C38", "title": "Protocol messages survive the wire", "statement": "Encoding then decoding a request, notification, error, key event or response gives back an equivalent message; in particular a success response decodes as success and an error response as that error.", "quantifier": "every message", "why_tests_cant": "all payloads", "anchors": ["remote/src/jsonrpc.rs: Request,Notification,Response,Error,Id", "remote/src/protocol.rs", "remote/src/keys.rs"]}
{"id": "C39", "title": "Clients tell notifications from responses", "statement": "Every notification sent by the server is decoded by the client as a notification and every response as a response.", "quantifier": "every message", "why_tests_cant": "all payloads", "anchors": ["remote/src/jsonrpc.rs: ClientEvent"]}
{"id": "C40", "title": "Key notation round trip", "statement": "Formatting a key event and parsing it back gives the same event, for every key a client can send.", "quantifier": "every key event", "why_tests_cant": "all modifiers and keys", "anchors": ["remote/src/keys.rs: Display/From<&str>/FromStr"]}
{"id": "C41", "title": "Modal key handling", "statement": "For any sequence of keys the handler is always in a defined mode with normal mode at the bottom, goto modes last for exactly one key, insertion mode is left exactly by escape, and keys trigger exactly the documented motions.", "quantifier": "every key sequence", "why_tests_cant": "unbounded sequences", "anchors": ["core/scripts/keys.lua: ModalHandler"]}
{"id": "C42", "title": "Server session life cycle", "statement": "For every interleaving of client joins, messages and leaves, the set of registered connections is exactly the joined clients that have not left or quit, no event makes the event loop panic, and the server stops exactly when the last client leaves.", "quantifier": "every interleaving of connections", "why_tests_cant": "schedules", "anchors": ["core/src/server.rs: handle_events"]}
{"id": "C43", "title": "Client identifiers are never reused", "statement": "Identifiers given to incoming connections are pairwise distinct.", "quantifier": "every number of connections", "why_tests_cant": "unbounded", "anchors": ["core/src/server.rs: serve"]}
{"id": "C44", "title": "Notifications reach exactly their addressees, in order", "statement": "A notification addressed to a set of clients is written to exactly the connected clients of that set, a broadcast to all of them, and each client receives its notifications in the order they were emitted.", "quantifier": "every sequence of notifications and every set of connected clients", "why_tests_cant": "schedules", "anchors": ["core/src/server.rs: BroadcastMessage::should_notify, handle_events", "core/src/editor/core.rs: Notifier"]}
{"id": "C45", "title": "Client-side state mirrors the latest notifications", "statement": "After any sequence of notifications the client state holds the last echo (cleared by a later menu), status, view, info and menu received; undecodable or unknown notifications and responses change nothing.", "quantifier": "every notification sequence", "why_tests_cant": "histories", "anchors": ["remote/src/connection.rs: ConnectionState::event_update"]}
{"id": "C46", "title": "Menu selection stays inside the menu", "statement": "After any sequence of menu notifications and next/previous actions the selected index designates an existing entry, and choosing it sends that entry's value (or the typed text for prompts).", "quantifier": "every action sequence", "why_tests_cant": "histories", "anchors": ["remote/src/connection.rs: Menu, action_menu_*, menu_select"]}
{"id": "C47", "title": "Request identifiers are unique per connection", "statement": "The requests sent on a connection carry pairwise distinct identifiers.", "quantifier": "every sequence of API calls", "why_tests_cant": "histories", "anchors": ["remote/src/connection.rs: request_id"]}
{"id": "C48", "title": "Client and daemon agree on the session address", "statement": "The session argument passed to a spawned daemon denotes, for the daemon, the same address the client will connect to.", "quantifier": "every session name", "why_tests_cant": "all strings", "anchors": ["remote/src/session.rs: ConnectionMode Display/FromStr, Session::from_name", "remote/src/lib.rs: start_daemon"]}
{"id": "C49", "title": "Shortest buffer names are unambiguous", "statement": "Among file buffers with pairwise distinct paths, the displayed shortest names are pairwise distinct and each is a trailing part of its path.", "quantifier": "every set of distinct absolute paths", "why_tests_cant": "all path sets", "anchors": ["core/src/editor/buffer.rs: find_uniq_name,find_shortest_name"]}
{"id": "C50", "title": "Error messages are flattened to one line", "statement": "A normalized message contains no newline or tab, never the same whitespace twice in a row, keeps all other characters in order, and normalizing twice changes nothing more.", "quantifier": "every message", "why_tests_cant": "all strings", "anchors": ["core/src/editor/core.rs: normalize_error_message"]}
{"id": "C51", "title": "Menu entries are displayed in full", "statement": "The fragments shown for a menu entry concatenate to its label, and the highlighted ones are exactly the parts that matched.", "quantifier": "every label and search", "why_tests_cant": "all strings", "anchors": ["core/src/editor/menu.rs: Candidate::tokenize"]}
{"id": "C52", "title": "Menu filtering shows exactly the matching entries, best first", "statement": "For a search made of plain words, the entries shown are exactly those whose label contains the words in order ignoring case, each as often as it was offered, ordered by the length of the matched span then by label; any search typed by the user is handled without crashing.", "quantifier": "every list of entries and search", "why_tests_cant": "all lists", "anchors": ["core/src/editor/menu.rs: MenuFilter, Ord for Candidate, to_notification_params"]}
{"id": "C53", "title": "Menu choices are dispatched or refused", "statement": "Selecting a choice runs the action of that entry with that choice; an unknown menu or choice is refused with -32602; prompt menus accept any text; every sub-menu reachable from the command menu exists.", "quantifier": "every command, choice and menu content", "why_tests_cant": "all inputs", "anchors": ["core/src/editor/mod.rs: command_menu,command_menu_select", "core/src/editor/command.rs"]}
{"id": "C54", "title": "FFI iterators enumerate each item once", "statement": "A list handed over the C API is enumerated completely, in order, each item exactly once, then null for ever.", "quantifier": "every list, every number of calls", "why_tests_cant": "unbounded", "anchors": ["remote-ffi/src/lib.rs: IndexedIterator"]}
{"id": "C55", "title": "FFI last-error protocol", "statement": "If an error is pending, its length is reported, and copying it into a buffer large enough succeeds and consumes it; a null buffer or a too small buffer is reported and does not lose the message.", "quantifier": "every sequence of calls", "why_tests_cant": "histories", "anchors": ["remote-ffi/src/lib.rs: ced_last_error_length,ced_last_error_message"]}
{"id": "C56", "title": "Terminal rendering fits the screen", "statement": "Drawing the view, menu or status never panics and never emits more rows than the terminal has, headers being exactly as wide as the terminal.", "quantifier": "every terminal size and state", "why_tests_cant": "all sizes", "anchors": ["core/src/tui.rs: draw_view,draw_menu,draw_status"]}
{"id": "C57", "title": "Messages are framed one per line", "statement": "The server's output to a client, read line by line, yields exactly the sequence of messages sent.", "quantifier": "every sequence of messages", "why_tests_cant": "all payloads", "anchors": ["core/src/server.rs: write_client,read_client", "remote/src/client.rs: run", "core/src/clients.rs: StdioClient::run"]}
{"id": "C58", "title": "Standalone start-up never blocks", "statement": "Starting in standalone mode with any list of files reaches the command loop.", "quantifier": "every number of files", "why_tests_cant": "unbounded", "anchors": ["core/src/clients.rs: start_standalone", "core/src/editor/core.rs: Notifier::broadcast"]}
{"id": "C59", "title": "Range overlap and containment", "statement": "Two ranges overlap (symmetrically) iff some offset belongs to both when both are non-empty, and containment holds iff every offset of a non-empty range belongs to the other.", "quantifier": "every pair of ranges", "why_tests_cant": "all integers", "anchors": ["core/src/editor/range.rs: overlap,contains"]}
{"id": "C60", "title": "Decoding text never corrupts characters", "statement": "If the initial text and all inserted texts are valid UTF-8 and every edit happens on character boundaries, the decoded text equals the bytes of the document whatever the internal fragmentation.", "quantifier": "every edit history on character boundaries", "why_tests_cant": "per-fragment decoding depends on history", "anchors": ["core/src/editor/piece_table/mod.rs: join,text (from_utf8_lossy per piece)"]}
{"id": "C61", "title": "Changing a view keeps everyone's cursors", "statement": "When a client adds a buffer to its current view, the selections of every client in the buffers that view already showed are the same in the resulting view.", "quantifier": "every reachable state, every clients, every buffer added", "why_tests_cant": "multi-client histories; rename of the view key", "anchors": ["core/src/editor/core.rs: modify_view,add_view,delete_view,add_to_current_view"]}
{"id": "C62", "title": "Messages and errors are logged and echoed to their addressees only", "statement": "Sending a message (or error, or debug line) adds exactly one line naming its origin to the corresponding log buffer, refreshes exactly the clients looking at that log, echoes the text to exactly the client addressed (or to everybody), and changes no other buffer, view or client.", "quantifier": "every state reached without a script appending the empty text to a buffer, every addressee and text", "why_tests_cant": "multi-client histories", "anchors": ["core/src/editor/core.rs: Core::message,error,debug,append_to; Notifier::echo"]}
{"id": "C63", "title": "The C API hands over what the server said", "statement": "Every event received by a connection opened through the C API is handed over as a C event of the same kind, and walking its strings and iterators to the end gives the same texts, faces, numbers and entries.", "quantifier": "every event", "why_tests_cant": "all payloads", "anchors": ["remote-ffi/src/event.rs: CedEvent, MenuItem, StatusItem, ViewItem, ViewLens", "remote-ffi/src/text.rs", "remote-ffi/src/lib.rs: IndexedIterator, cstring!"]}
{"id": "C64", "title": "Every line a client sends is answered once, in order", "statement": "For every interleaving of connections, the lines a client has sent are, in order, those that were handled followed by those still waiting in the queue; each handled line was answered to that client exactly once, the answers being in the order of the lines and each carrying the identifier of its request (null for a line that is no request).", "quantifier": "every interleaving of connections, deliveries and events", "why_tests_cant": "schedules", "anchors": ["core/src/server.rs: read_client, handle_events", "core/src/editor/mod.rs: handle"]}
{"id": "C65", "title": "Keys typed in the terminal reach the server", "statement": "Outside a menu, every key press delivered to the terminal client is sent to the server as one keys request carrying that key and its modifiers, once and in the order typed, apart from the documented shortcuts which send their own request; the files given on the command line are asked for first, and no key crashes the client.", "quantifier": "every interleaving of keys, resizes, server messages and event handling", "why_tests_cant": "unbounded interleavings of three producers and one queue", "anchors": ["core/src/tui.rs: Term::{new,start,handle_input}, ToKey"]}
{"id": "C66", "title": "Typing in a menu searches for what was typed", "statement": "While a menu is open, typing characters and Backspace asks the server for the menu's search so edited, however fast the user types; Escape closes the menu for good.", "quantifier": "every menu, every sequence of keys, every timing of the server's answers", "why_tests_cant": "timing of answers against key presses", "anchors": ["core/src/tui.rs: Term::handle_input", "remote/src/connection.rs: Connection::menu, StateLock"]}
{"id": "C67", "title": "The screen reflects the state", "statement": "Once every pending event has been handled, the screen shows the menu if one is open and otherwise the current view at the current terminal size, with the current status line drawn last.", "quantifier": "every interleaving of messages, keys, resizes and event handling", "why_tests_cant": "unbounded interleavings", "anchors": ["core/src/tui.rs: Term::{start,draw_view,draw_status,draw_menu,resize}"]}
{"id": "C68", "title": "Keys do what is documented, end to end", "statement": "In an editor that runs the scripts of the program, the keys a client sends do exactly what the documentation of the modes says: the mode they start in is the one its earlier keys since it joined led to (whatever other clients did), the documented calls are made in order, the answer is granted, and the client alone is sent, for each key that does something, its status line (the key, the mode, [id@session]) and, while a target is awaited, the box of the two targets.", "quantifier": "every history of joins, leaves and requests other than exec, every interleaving of clients, every list of keys", "why_tests_cant": "unbounded histories and interleavings; the tests press a few keys", "anchors": ["core/scripts/keys.lua", "core/scripts/editor.lua", "core/scripts/prelude.lua", "core/src/editor/mod.rs: Editor::command_keys, exec_lua, add_client, remove_client"]}
{"id": "C69", "title": "Hint boxes are rectangles", "statement": "show_hint(client, lines, framed) shows every line; all rows of the box take the same number of columns.", "quantifier": "every list of lines", "why_tests_cant": "any number and lengths of lines", "anchors": ["core/scripts/editor.lua: Editor:show_hint", "core/scripts/utils.lua: max_length"]}
{"id": "C70", "title": "Script mode runs the scripts in order", "statement": "Running scripts from the command line is the same as a client that joins, asks to run each of them in turn, and leaves; the first script that cannot be read or fails ends the run with an error, and the next ones are not run.", "quantifier": "every list of scripts, contents, and initial world", "why_tests_cant": "any number of scripts and any Lua", "anchors": ["core/src/script.rs: exec_scripts, exec_script_oneshot"]}
{"id": "C71", "title": "The name of a session leads to its server", "statement": "Starting a client for a session always ends with the client registered by the server of that session, starting a server if there is none; all clients of a session are on the same server; a server that stops or crashes leaves the session usable for the next client.", "quantifier": "every interleaving of the steps of any number of clients and servers of any sessions, and every crash point", "why_tests_cant": "races between processes on the directory of the sockets, crash points", "anchors": ["remote/src/lib.rs: start_daemon, ensure_session", "core/src/server.rs: Server::serve, Server::run", "remote/src/transport/socket.rs: SocketListener::bind", "remote/src/client.rs: Client::run"]}
{"id": "C72", "title": "What a client is shown is current", "statement": "The last view notification a client received describes its current view: the buffers the view shows, with their current text, and the client's current selections. Every call of any client that changes one of these for a client sends it a new view notification.", "quantifier": "every reachable state with any number of clients, every call of any client, every connected client", "why_tests_cant": "a missing notification shows only for a particular combination of clients, views and calls", "anchors": ["core/src/editor/core.rs: notify_view_update, append_to, edit, view, delete_view, modify_view, move_cursor, delete_selection, add_client"]}
{"id": "C73", "title": "Standalone mode answers every line", "statement": "In standalone mode every line of standard input that is UTF-8 is answered exactly once on standard output, in the order of the lines and with the identifier of its request, whatever the thread that prints notifications does in between; every notification for the client is printed, in the order the editor sent them; and the program ends when its input ends, or when the user quits.", "quantifier": "every list of input lines, every starting editor, every interleaving of the reading and the printing thread, every behaviour of disk and scripts", "why_tests_cant": "two threads print to the same output and share a bounded queue; whether a line or a notification is lost depends on the schedule", "anchors": ["core/src/clients.rs: start_standalone", "core/src/editor/core.rs: Notifier"]}
{"id": "C74", "title": "The relay mode is transparent", "statement": "In json mode every request given on standard input reaches the server unchanged, once and in order, whatever its layout, and is handled as if it had been sent directly; every message of the server is written to standard output, in order, as a message that reads the same, one per line; lines that are no request are dropped; nothing given before the server ends is lost.", "quantifier": "every sequence of input lines and server lines, every interleaving of reading, connecting, writing and receiving, every failure", "why_tests_cant": "the messages are arbitrary JSON texts and are parsed and printed again on the way; the two directions interleave freely", "anchors": ["core/src/clients.rs: StdioClient::run", "remote/src/client.rs: Client::run", "remote/src/jsonrpc.rs: Request, ClientEvent"]}
{"id": "C75", "title": "Server and clients together: every request gets its own reply, and a client that has read everything shows the truth", "statement": "Whatever the clients call, and however reading, writing and handling are interleaved over the byte streams between them: the server reads exactly the requests a client made, in order; the n-th reply the client reads carries the number of its n-th request, and once everything is read every request has exactly one reply; a client that has read everything shows the last view, status line and message the editor addressed to it since it joined, and knows its own number and the session's name; where the editor is up to date (C72), what it displays is what its view shows now; and such a state can always be reached by writing and reading alone.", "quantifier": "every number of clients, every sequence of API calls, every interleaving of the server's moves and the clients' reads, every script of the users, every content of buffers", "why_tests_cant": "the property composes the editor, the queue of events, the queue of notifications, the wire format and the client library over all interleavings; texts and histories are unbounded", "anchors": ["core/src/server.rs: handle_events, write_client, read_client", "remote/src/client.rs: Client::run", "remote/src/connection.rs: ConnectionState::event_update, Connection", "remote/src/jsonrpc.rs", "core/src/editor/core.rs: notify_view_update"]}
{"id": "C76", "title": "The list of sessions names the running sessions", "statement": "The session list (ced -l) names no session twice and none for which no server was started; with servers started by clients one at a time and nothing crashing, every session that has a client is listed and every listed session is served; and when nothing is in progress the list is exactly the sessions whose server accepts clients.", "quantifier": "every history of starting, stopping, crashing and joining, every interleaving", "why_tests_cant": "what is listed depends on which sockets the processes left in the directory over their whole history", "anchors": ["remote/src/session.rs: Session::list", "core/src/bin/ced.rs: main", "remote/src/lib.rs: start_daemon, ensure_session", "core/src/server.rs: run"]}
{"id": "C77", "title": "The generated C interface is complete and unambiguous", "statement": "For every configuration of structures the generator makes exactly one destructor per structure and per iterator and one next-item function per iterator, which returns that iterator's items; all names begin with the prefix and no two functions share a name; each type used is imported, once, and nothing else; and with the shipped configuration a C program can read and free everything the interface hands to it.", "quantifier": "every configuration (list of structures and prefix)", "why_tests_cant": "configurations are unbounded; name clashes depend on pairs of names", "anchors": ["remote-ffi-gen/src/lib.rs: Generator, to_snake_case", "remote-ffi/build.rs", "remote-ffi/src"]}
{"id": "C78", "title": "A slow client does not hold up the others", "statement": "Whatever the sizes of the sockets between the server and its clients, nothing is lost, reordered or made up, and everything that happens could also happen with unlimited ones; while the server is writing it waits for no one but the client it writes to, and as long as the clients read, everything the editor has to say reaches them; and a client that does not read does not keep the others from being served.", "quantifier": "every socket size, number of clients, history of calls and interleaving of reading and writing, byte by byte", "why_tests_cant": "it depends on socket sizes, on how reads and writes cut the stream and on when clients stop reading", "anchors": ["core/src/server.rs: write_client, read_client, serve, run", "remote/src/client.rs: Client::run", "core/src/clients.rs: StdioClient::run"]}
{"id": "C79", "title": "The terminal shows what the editor has", "statement": "Whatever the user types and the other clients do, once the terminal of a client has read and handled everything, its screen shows, from the top, the title of each buffer of its view and the lines of its lenses as the editor has them now, as many as there is room for, each cut at the width of the terminal, and on the last row the last message and status line sent to it; nothing else is left on the screen and nothing has scrolled away.", "quantifier": "every file list, terminal size and resize, key sequence, scripts' and other clients' behaviour, and every interleaving of server, clients and the terminal's tasks", "why_tests_cant": "it ties the editor's state to the characters on the screen through the server's queues, the byte stream, the client's tasks and the drawing code, for every history and schedule", "anchors": ["core/src/bin/ced.rs: main", "tui.rs: Term::new, start, draw_view, draw_status, handle_input", "server.rs: run", "connection.rs: connect, ConnectionState::event_update", "view.rs: to_notification_params"]}
{"id": "C80", "title": "ced FILE... opens the last file and shows it", "statement": "`ced FILE...` in a terminal, with the shipped scripts: once everything is handled and before the user types, the screen shows the last FILE on the command line: its name and number of lines in the title, its lines as they are on disk from the first one on, as many as there is room for and each cut at the width of the screen, and the client and session on the last row.", "quantifier": "every list of files, contents of the last one (valid UTF-8; each line printable ASCII, or any characters but control characters and shorter in bytes than the screen is wide), terminal size and resizes, session name, iteration order of hash maps and interleaving of server, client tasks and terminal", "why_tests_cant": "it runs from the file on disk to the characters on the screen through loading, editing requests, notifications, sockets and drawing, for every content, size and schedule", "anchors": ["core/src/bin/ced.rs: main", "tui.rs: Term::new, start, draw_view, draw_status", "core.rs: edit, add_client, notify_view_update", "buffer.rs: new_file, load_from_disk", "editor/mod.rs: command_edit, add_client", "connection.rs: connect, edit", "server.rs: run"]}
{"id": "C81", "title": "Memory handed to a C program", "statement": "A C program that passes to the interface only pointers it was given and has not destroyed, each to a function for its type, never makes it touch freed memory or free something twice; what is allocated is exactly what the program was given and has not destroyed; a call changes nothing but the box it is about, and the boxes hold what the events and items say; and everything the interface hands over can be given back.", "quantifier": "every sequence of calls of a C program, every sequence of events and every choice of addresses by the allocator", "why_tests_cant": "it ranges over all orders in which a program reads and destroys what it was given, and over the reuse of addresses", "anchors": ["remote-ffi/src/lib.rs: raw!, cstring!, IndexedIterator, ced_version", "remote-ffi/src/event.rs", "remote-ffi/src/text.rs", "remote-ffi/src/connection.rs", "remote-ffi-gen/src/lib.rs: register_fn_destroy, register_fn_next_item", "remote-ffi/ffigen.toml"]}
{"id": "C82", "title": "Asking for a menu", "statement": "A client that asks for a menu without searching is told that it succeeded, and is sent the menu with its title and everything it has to offer, read at that moment and in alphabetical order: the commands with their descriptions; the files below the working directory; the views and the buffers no view shows alone; the buffers; or, for a prompt, the question it asks. Nobody else is sent anything and nothing else changes. A client that searches a menu is sent exactly those entries that match.", "quantifier": "every history of the editor, every request line that asks for a menu, every client, every file system, every set of buffers and views, every plain search", "why_tests_cant": "all histories, all states of the menus left behind by other clients, all file listings, buffers and views; the tests open one menu of a new editor", "anchors": ["core/src/editor/mod.rs: command_menu", "core/src/editor/menu.rs: populate, to_notification_params, filter_items", "core/src/editor/command.rs: default_commands, submenu_action"]}
{"id": "C83", "title": "Editing a file again: kept if the file did not change, read again if it did", "statement": "A name is the path of a file, below the directory the editor was started in unless it is absolute; editing it opens that file's text. When a file that is open is edited again, by any client: if it was not written since it was last read, what was done to its text is kept; if it was written since, the buffer becomes what the file now is.", "quantifier": "every history of the editor between the two requests, by any clients and scripts, every state of the file system and clock at every request, every text", "why_tests_cant": "all histories, all interleavings of writes to the file with requests, all texts; the tests use no clock and no second edit of a file", "anchors": ["core/src/editor/buffer.rs: new_file, is_synced, load_from_disk", "core/src/editor/core.rs: edit, open_file"]}
{"id": "C84", "title": "How a message is spelled does not matter", "statement": "A line is read as the JSON value it spells (RFC 8259), and refused when it spells none or nests more than 127 levels; no line has two meanings. A request has the same answer and the same effects whatever the white space between its parts, the escapes in its strings (including \\u escapes and surrogate pairs), the order of its members and of those of its parameters, and whatever unknown members it has; one that has a known member twice is refused; a client takes a message for the same whatever its spelling. What a line in UTF-8 says is in UTF-8.", "quantifier": "every line, every JSON value up to 127 levels and every spelling of it, every state of the editor", "why_tests_cant": "infinitely many spellings of every message; the tests only read what the project itself printed", "anchors": ["remote/src/jsonrpc.rs: Request, Notification, Response, ClientEvent (FromStr)", "core/src/editor/mod.rs: handle", "remote/src/protocol.rs"]}
{"id": "C85", "title": "A FILE of the command line is the file of that name where the command was given", "statement": "`ced FILE...` opens, for a relative FILE, the file of that name in the directory where the command was given, and for an absolute FILE that file, whichever process serves the session.", "quantifier": "every history of starts, joins and departures on the machine, every directory, every state of the editor and of the file system", "why_tests_cant": "the server is another process, started by whichever client came first, in its directory; tests run one process in one directory", "anchors": ["remote/src/lib.rs: start_daemon, ensure_session", "core/src/bin/ced.rs: main", "core/src/tui.rs: Term::new", "core/src/editor/core.rs: Core::new, edit", "core/src/editor/buffer.rs: new_file"]}
{"id": "C86", "title": "Messages cross a connection whole, however their bytes travel; a connection that breaks changes none", "statement": "Whatever pieces the bytes of a connection arrive in, the receiver acts on exactly the messages that were sent, in order. If the connection ends or breaks anywhere, the receiver acts on the whole messages that arrived before, and what remains of the next one is either that message (only its end of line was missing) or is refused and changes nothing. A line that is not text ends the connection.", "quantifier": "all sequences of messages, all ways of cutting their bytes into pieces, every byte at which the connection is closed or reset", "why_tests_cant": "the pieces are chosen by the network and the operating system, and a test would have to break the connection at every byte of every message", "anchors": ["core/src/server.rs: read_client", "remote/src/client.rs: Client::run, parse_line", "remote/src/connection.rs: connect", "remote/src/transport/server_stream.rs"]}
{"id": "C87", "title": "The terminal is given back as it was", "statement": "When the terminal client ends - by its exit key, because the server is gone, or by a failure - the terminal has the mode it had before, shows the screen it showed before with the same contents, and shows its cursor; and what made it fail can be read there.", "quantifier": "every terminal and mode it is in, every run of the client (messages, keys, sizes), every point at which it can fail or be ended", "why_tests_cant": "tests have no terminal, and the failures would have to be caused at every point of every run", "anchors": ["core/src/tui.rs: Term::start, Drop for Term", "core/src/bin/ced.rs: main"]}
{"id": "C88", "title": "A file has one text, however it is named", "statement": "Clients that edit the same file see the same text and each other's changes, also if they name the file differently (relative to the editor's directory or by its full path): a file has one buffer.", "quantifier": "every history of an editor, every file and every pair of names that lead to it", "why_tests_cant": "which names were used before, and what was done to the text in between, is any history", "anchors": ["core/src/editor/core.rs: Core::edit (TODO check for same file but different name), open_file, delete_selection", "core/src/editor/buffer.rs: new_file, load_from_disk"]}
{"id": "C89", "title": "The command line means what it says", "statement": "A command line made of the documented arguments - files, -l/--list, -s/--session NAME, -m/--mode MODE, each option at most once, in any order and in any of the usual spellings (joined, separate, with an equal sign, grouped letters, files after two dashes) - starts exactly the mode asked for, on the session and with the files named, in order; every other command line starts nothing. The command with which a client starts the server of its session is understood as a server of that session.", "quantifier": "every list of arguments, programs built with and without the terminal feature, every session name", "why_tests_cant": "argument lists are unbounded, and the second half is about all that are not well-formed", "anchors": ["core/src/bin/ced.rs: Mode, main", "remote/src/lib.rs: start_daemon"]}
{"id": "C90", "title": "Messages are those of JSON-RPC 2.0 and of the protocol", "statement": "Every message a server writes and every request a client makes is one of the protocol's - an object with exactly the members, names and kinds of values that the protocol has for that method, or an answer that is null or an error with one of five codes - and has the form JSON-RPC 2.0 demands of requests, notifications and responses; so a program written from these two descriptions alone can talk to either.", "quantifier": "every history of a server and of clients, every script, every text in a buffer, name or message", "why_tests_cant": "the messages of a session depend on everything the session did; tests compare a few", "anchors": ["remote/src/jsonrpc.rs: Request, Notification, Response, Error", "remote/src/protocol.rs", "remote/src/connection.rs: Connection", "core/src/server.rs: write_client"]}
{"id": "C91", "title": "Requests do what they ask for", "statement": "A request edit, view, view-delete, view-add, view-remove or quit of a client makes exactly the change of that name for that client with the name given (C29 to C35 say what the changes are), sends exactly the notifications of that change and touches neither the menus nor the scripts nor the session; quit also has the client stopped, and nobody else. It is answered under its identifier: granted, or refused with -32600 and a reason that names the view or buffer there is not; it fails only if the change itself fails. A view is chosen by its key, or by the name of an open buffer; after a refusal nothing changed. A script that fails is reported in the answer with its message, and to the client as an error message. Keys are handled one after the other up to the first that fails, which is reported likewise.", "quantifier": "every editor state, every client, every request line, all scripts, all lists of keys", "why_tests_cant": "all states, all requests and all scripts", "anchors": ["core/src/editor/mod.rs: Editor::handle,command_edit,command_view,command_view_add,command_view_remove,command_view_delete,command_quit,command_exec,command_keys,exec_lua"]}
