{
 "claims": [
  {
   "property": "C01",
   "status": "partial",
   "theorems": [
    "C01_edits_match_string",
    "C01_edits_from_empty",
    "C01_edits_debug_partial",
    "C01_profiles_partial",
    "C01_suffix_delete_refuted",
    "C01_empty_delete_refuted",
    "C01_stale_handle_refuted"
   ],
   "note": "Full for non-empty insertions/deletions with wrapping arithmetic (release) and a tree whose handles follow the successor. In debug arithmetic every sequence that succeeds is right (C01_profiles_partial) and it succeeds if no deletion ends exactly at the end of the document; otherwise it may panic (C01_suffix_delete_refuted). The other refutations show that the remaining hypotheses are needed."
  },
  {
   "property": "C02",
   "status": "proved",
   "theorems": [
    "C02_range_is_slice",
    "C05_profiles"
   ],
   "note": "all states reachable by edits, undo, redo, in both profiles"
  },
  {
   "property": "C03",
   "status": "proved",
   "theorems": [
    "C03_length_empty_max",
    "C05_profiles"
   ],
   "note": "all states reachable by edits, undo, redo, in both profiles"
  },
  {
   "property": "C04",
   "status": "partial",
   "theorems": [
    "C04_newlines_after_edits_partial",
    "C04_newlines_debug_partial",
    "C04_buffers",
    "C04_undo_refuted",
    "C01_profiles_partial"
   ],
   "note": "Holds after any edits that succeed, in both profiles; for every buffer of every editor state reached without appending the empty text (C04_buffers); false after undo (the code does not restore the cache)."
  },
  {
   "property": "C05",
   "status": "proved",
   "theorems": [
    "C05_history",
    "C05_undo_run",
    "C05_undo_redo_n",
    "C05_edit_discards_redo",
    "C05_nothing_to_undo",
    "C05_profiles"
   ],
   "note": "Release profile: always; debug profile: whenever the calls do not panic (C05_profiles)."
  },
  {
   "property": "C06",
   "status": "proved",
   "theorems": [
    "C06_replace_one_step",
    "C06_diff_one_step",
    "C06_profiles"
   ],
   "note": "All reachable documents (edits, undo, redo), both profiles."
  },
  {
   "property": "C07",
   "status": "proved",
   "theorems": [
    "C07_compaction_invisible",
    "C05_profiles"
   ],
   "note": "Both profiles."
  },
  {
   "property": "C08",
   "status": "proved",
   "theorems": [
    "C08_line_count",
    "C08_lines_counted",
    "C08_lines_join",
    "C08_line",
    "C08_line_outside",
    "C08_all_lines",
    "C08_crlf_refuted"
   ],
   "note": "All documents reached by public edits from a non-empty text. The list of all lines has the right number of elements always and equals the lines when no CR occurs; with CR LF line ends lines() drops the CR that line_bytes() keeps (C08_crlf_refuted)."
  },
  {
   "property": "C09",
   "status": "partial",
   "theorems": [
    "C09_ascii_offset_to_coord",
    "C09_offset_outside",
    "C09_ascii_coord_to_offset",
    "C09_coord_past_end",
    "C09_graphemes_partial",
    "C09_first_line_refuted"
   ],
   "note": "ASCII part proved in full. Unicode part proved for characters of lines >= 2 (and line-1 characters preceded by single-byte ones); false on line 1, where byte columns are reported (C09_first_line_refuted)."
  },
  {
   "property": "C10",
   "status": "partial",
   "theorems": [
    "C10_ascii_offset_round_trip",
    "C10_ascii_coord_round_trip",
    "C10_graphemes_partial",
    "C10_unicode_refuted",
    "C10_unicode_newline_refuted"
   ],
   "note": "Round trips proved for ASCII and for grapheme coordinates on lines >= 2; refuted on line 1 and on newlines of lines with multi-byte characters."
  },
  {
   "property": "C11",
   "status": "partial",
   "theorems": [
    "C11_ascii_char_at_offset",
    "C11_char_at",
    "C11_char_at_newline",
    "C11_outside",
    "C11_outside_column",
    "C11_unterminated_refuted",
    "C11_column_zero_refuted",
    "C11_past_end_refuted"
   ],
   "note": "Existing characters always looked up correctly; the position after an unterminated last line, column 0, and offsets past the end panic (refutations)."
  },
  {
   "property": "C12",
   "status": "partial",
   "theorems": [
    "C12_line_length_partial",
    "C12_first_line",
    "C12_longest",
    "C12_no_newline_refuted",
    "C12_line_zero_refuted"
   ],
   "note": "Exact for every document with a newline; without one line_length answers the document length for any index, and index 0 underflows (refutations). longest_line proved."
  },
  {
   "property": "C13",
   "status": "partial",
   "theorems": [
    "C13_covering_partial",
    "C13_error_bound_partial",
    "C13_same_text",
    "C13_no_panic_partial",
    "C13_prefix_refuted",
    "C13_prefix_general_refuted",
    "C13_single_byte_refuted",
    "C13_pure_insertion_refuted",
    "C13_empty_side_refuted"
   ],
   "note": "False in general (refutations). Proved: any returned script that accounts for both texts is correct; any script other than a bare prefix is wrong by at most one byte on each side; equal texts; no panic when both ends differ."
  },
  {
   "property": "C14",
   "status": "partial",
   "theorems": [
    "C14_apply_diff_partial",
    "C14_any_text_partial",
    "C14_reload_refuted",
    "C14_emptied_refuted",
    "C14_char_boundary_refuted"
   ],
   "note": "Proved when the computed script covers both texts, including the single undo step: for ASCII texts the reload succeeds (C14_apply_diff_partial); for any document that reads as its bytes do, whenever it succeeds (C14_any_text_partial). False otherwise (refutations; a reload can even empty the buffer, or panic inside a character)."
  },
  {
   "property": "C15",
   "status": "partial",
   "theorems": [
    "C15_common_partial",
    "C15_almost_longest_partial",
    "C15_equal_texts",
    "C15_longest_refuted"
   ],
   "note": "Common subsequence proved for all pairs, at most one byte shorter than a longest one; exactly longest is refuted (aZqbZ / abZ), true for equal texts."
  },
  {
   "property": "C16",
   "status": "partial",
   "theorems": [
    "C16_right_partial",
    "C16_left_partial",
    "C16_rights_partial",
    "C16_after_delete_refuted"
   ],
   "note": "Every cursor on a byte (whatever column it remembers) moves by exactly one character; at the first or last character it stays if its remembered column is its column. Missing, because false: right at the very end with a stale remembered column (after delete-selection) moves left (C16_after_delete_refuted)."
  },
  {
   "property": "C17",
   "status": "proved",
   "theorems": [
    "C17_vertical",
    "C17_down_and_back"
   ],
   "note": "Any number of vertical moves from any cursor on a byte, whatever column it remembers."
  },
  {
   "property": "C18",
   "status": "partial",
   "theorems": [
    "C18_begin",
    "C18_end",
    "C18_line_begin",
    "C18_line_end_partial",
    "C18_line_end_refuted"
   ],
   "note": "line-end proved on non-empty lines; on an empty line the code panics (refutation)."
  },
  {
   "property": "C19",
   "status": "partial",
   "theorems": [
    "C19_moves_partial",
    "C19_from_start_partial",
    "C19_single_byte",
    "C19_line_end_refuted",
    "C19_unterminated_refuted",
    "C19_unicode_refuted"
   ],
   "note": "Proved for ASCII newline-terminated documents, with line-end only if no line is empty. Refuted outside: empty lines, unterminated documents, wide characters."
  },
  {
   "property": "C20",
   "status": "proved",
   "theorems": [
    "C20_range",
    "C20_direction",
    "C20_text",
    "C20_outside_refuted",
    "C20_context_partial"
   ],
   "note": "Every edited ASCII document, any selection inside it. Scripts are told so too, with the lines and columns of both ends, in every state reached by tame calls (C20_context_partial)."
  },
  {
   "property": "C21",
   "status": "partial",
   "theorems": [
    "C21_editor",
    "C21_editor_partial",
    "C22_own_partial",
    "C21_buffer",
    "C21_nothing_lost",
    "C21_hidden_refuted",
    "C21_unicode_refuted"
   ],
   "note": "C21_editor: in every state reached without appending the empty text, in both profiles, for a client with one selection inside each buffer of its view and ASCII buffers: the reply is the list of selected texts, each buffer loses exactly its selected slice (an emptied buffer gets a newline), nothing else changes. Both remaining clauses are needed, because without them the property is false of the code: selections in buffers removed from the view are deleted too (C21_hidden_refuted), and with a non-ASCII character nothing is deleted (C21_unicode_refuted). C22_own_partial shows that the deletion succeeds."
  },
  {
   "property": "C22",
   "status": "partial",
   "theorems": [
    "C22_any_state_partial",
    "C22_own_partial",
    "C22_all_partial",
    "C22_buffer_partial",
    "C22_others_refuted",
    "C22_suffix_refuted",
    "C22_delete_twice_refuted"
   ],
   "note": "C22_any_state_partial: the acting client in the acting view, in every state reached without appending the empty text. C22_all_partial: all clients and views of careful sessions, provided the deletion spares the other selections (a clause of tame). The full property is false of the code: the selections of other clients, or of the same client in other views, are not clamped (C22_others_refuted), and deleting up to the end of the buffer leaves the cursor outside (C22_suffix_refuted)."
  },
  {
   "property": "C23",
   "status": "partial",
   "theorems": [
    "C23_partial",
    "C23_profiles_partial",
    "C23_refuted"
   ],
   "note": "Every history without a reload of a changed file and without appending the empty text, with any clients and any selections (even outside their buffer), both profiles. The excluded reload falsifies it: C23_refuted (a reload can leave a buffer empty)."
  },
  {
   "property": "C24",
   "status": "partial",
   "theorems": [
    "C24_key_identifies_view_partial",
    "C24_same_focuses_partial",
    "C24_any_name_refuted"
   ],
   "note": "Proved for buffer names without '{' (any focuses). False for arbitrary names: C24_any_name_refuted gives two different views with the same key."
  },
  {
   "property": "C25",
   "status": "proved",
   "theorems": [
    "C25_exactly_the_added_lenses",
    "C25_document_order",
    "C25_name_order",
    "C25_buffers",
    "C25_listing",
    "C25_header_cover_refuted"
   ],
   "note": "For every sequence of lens additions and group removals. The header goes from the start of the first lens to the end of the last lens in the order; C25_header_cover_refuted shows that this need not cover a lens in between."
  },
  {
   "property": "C26",
   "status": "partial",
   "theorems": [
    "C26_utf8_whole_view",
    "C26_whole_view_partial",
    "C26_range_lens",
    "C26_text"
   ],
   "note": "C26_text: for every view (whole buffers and ranges), every valid UTF-8 text edited on character boundaries and every selection, if a notification is made its headings, first lines and texts are exactly those of the buffers. A notification is made: whole views with nothing selected; ASCII buffers without CR with any selections inside the buffers. With CR LF line ends the CR is not shown (stated in the theorem)."
  },
  {
   "property": "C27",
   "status": "partial",
   "theorems": [
    "C27_highlight_partial",
    "C27_range_refuted",
    "C27_crlf_refuted",
    "C27_wide_refuted"
   ],
   "note": "Whole-buffer lenses on ASCII text without CR. Refuted for range lenses (misaligned), CRLF text, and characters of more than one byte after the first line."
  },
  {
   "property": "C28",
   "status": "proved",
   "theorems": [
    "C28_stackmap",
    "C28_latest_after_insert",
    "C28_set_last_absent",
    "C28_deref_mut_refuted"
   ],
   "note": "All operations of the API; C28_deref_mut_refuted shows the DerefMut entry path bypasses recency."
  },
  {
   "property": "C29",
   "status": "partial",
   "theorems": [
    "C29_deletable_partial",
    "C29_refuted"
   ],
   "note": "Proved for sessions of tame calls (CoreTame.v) and views satisfying deletable: not the last view, and not showing *debug* together with a buffer shown nowhere else. Refuted in general (C29_refuted, C36_refuted): views opened by buffer name, the last view, a view with *debug* and an exclusive buffer."
  },
  {
   "property": "C30",
   "status": "proved",
   "theorems": [
    "C30_registered"
   ],
   "note": "Every reachable state of the core, any disk contents, any interleaving of calls and hash map orders."
  },
  {
   "property": "C31",
   "status": "proved",
   "theorems": [
    "C31_views_show_open_buffers",
    "C31_no_duplicates"
   ],
   "note": "Every reachable state."
  },
  {
   "property": "C32",
   "status": "partial",
   "theorems": [
    "C32_isolation_partial",
    "C32_refuted"
   ],
   "note": "Holds except when the caller's view change produces the key of a view already listed, whose selections are then overwritten for every client (refuted by a concrete history)."
  },
  {
   "property": "C33",
   "status": "proved",
   "theorems": [
    "C33_scratch_edit",
    "C33_file_edit"
   ],
   "note": "Both scratch and file edits, successful outcomes."
  },
  {
   "property": "C34",
   "status": "proved",
   "theorems": [
    "C34_delete_view"
   ],
   "note": "Successful deletions; the debug log may be recreated."
  },
  {
   "property": "C35",
   "status": "proved",
   "theorems": [
    "C35_unknown_view",
    "C35_unknown_buffer",
    "C35_errors_change_nothing"
   ],
   "note": "Unknown names are refused in every state, and a refusal is the only error answer and changes nothing."
  },
  {
   "property": "C36",
   "status": "partial",
   "theorems": [
    "C36_careful_partial",
    "C36_starts_partial",
    "C36_selections_partial",
    "C36_refuted"
   ],
   "note": "Every tame call (CoreTame.v: ASCII names and texts, readable files, deletions that spare the other selections and do not end at the end of a buffer, deletable views, ...) of a tame history succeeds. Each excluded class has a panic witness in C36_refuted; the full property is false of the code."
  },
  {
   "property": "C37",
   "status": "partial",
   "theorems": [
    "C37_partial",
    "C37_refusals",
    "C37_refuted",
    "C37_careful_partial",
    "C37_answered_partial",
    "C37_starts_partial"
   ],
   "note": "for every editor state, script and line: if the editor survives there is one answer, with version, id and code as required, and refused requests change nothing; it survives every careful event; C37_refuted: in every reachable state a menu search for an opening parenthesis crashes it, so that line gets no answer"
  },
  {
   "property": "C38",
   "status": "partial",
   "theorems": [
    "C38_request",
    "C38_notification",
    "C38_edit",
    "C38_menu",
    "C38_select",
    "C38_string",
    "C38_keys",
    "C38_success_partial",
    "C38_error",
    "C38_error_texts",
    "C38_refuted",
    "C38_payloads"
   ],
   "note": "Requests, notifications, errors, key events and typed parameters survive printing and parsing (null = absent, no floats, under 127 levels). Refuted for successes with a null result, i.e. all successes of this protocol: they decode as neither success nor error and asking for the result panics."
  },
  {
   "property": "C39",
   "status": "proved",
   "theorems": [
    "C39",
    "C39_foreign"
   ],
   "note": "for every wire message (no floats, under 127 levels)"
  },
  {
   "property": "C40",
   "status": "partial",
   "theorems": [
    "C40_round_trip_partial",
    "C40_refuted",
    "C40_injective",
    "C40_typed"
   ],
   "note": "exactly the escape key and the characters that are not ASCII capitals come back, with any modifiers; capitals come back as small letters; Enter, Backspace and the arrows panic"
  },
  {
   "property": "C41",
   "status": "proved",
   "theorems": [
    "C41",
    "C41_documented_once",
    "C41_modes",
    "C41_goto_once",
    "C41_insertion"
   ],
   "note": "keys.lua as data, any sequence of key events"
  },
  {
   "property": "C42",
   "status": "partial",
   "theorems": [
    "C42_registered",
    "C42_changes",
    "C42_quit",
    "C42_careful_partial",
    "C42_progress",
    "C42_refuted",
    "C42_refuted_quit",
    "C42_refuted_stop",
    "C42_refuted_io"
   ],
   "note": "The registered connections are exactly the clients of the editor, and change exactly with joins, leaves and quits; the server stops exactly when a leave empties them (C42_registered, C42_changes). The rest of the property is false of the code: a client that quits crashes the server when it disconnects (C42_quit, C42_refuted), the last client quitting does not stop the server (C42_refuted_quit), it may stop although another connection is queued (C42_refuted_stop), and any failed accept or answer is fatal (C42_refuted_io). C42_careful_partial proves there is no panic as long as nobody quits, answers can be written and events are careful."
  },
  {
   "property": "C43",
   "status": "proved",
   "theorems": [
    "C43"
   ],
   "note": "The k-th accepted connection gets the number k, which nobody has or ever had. The counter is a usize; wrapping at 2^64 connections is not modelled."
  },
  {
   "property": "C44",
   "status": "proved",
   "theorems": [
    "C44_each",
    "C44_order"
   ],
   "note": "C44_each: taking a notification writes it once to exactly the registered addressees whose stream works; C44_order: since it joined, a registered client received exactly the addressed notifications taken from the queue, in the order they were broadcast. Notifications not yet taken when a client is removed are never written to it."
  },
  {
   "property": "C45",
   "status": "proved",
   "theorems": [
    "C45",
    "C45_ignored",
    "C45_delivered",
    "C45_reported"
   ],
   "note": "Over every mix of received events and API calls; C45_delivered goes from the core's notification through the wire to the client's state."
  },
  {
   "property": "C46",
   "status": "partial",
   "theorems": [
    "C46_partial",
    "C46_total",
    "C46_choice",
    "C46_moves",
    "C46_refuted"
   ],
   "note": "Proved as long as the server never shows a menu without entries; an empty menu (a search that matches nothing) makes choosing panic (C46_refuted)."
  },
  {
   "property": "C47",
   "status": "partial",
   "theorems": [
    "C47_partial",
    "C47_refuted"
   ],
   "note": "Always in the debug profile (the counter's overflow panics); in the release profile up to 2^32 requests, after which identifiers repeat (C47_refuted)."
  },
  {
   "property": "C48",
   "status": "partial",
   "theorems": [
    "C48_partial",
    "C48_accepted",
    "C48_refuted",
    "C48_refuted_host",
    "C48_refuted_dots"
   ],
   "note": "Proved for addresses and for names that are ordinary file names; for names with a directory the daemon listens elsewhere (C48_refuted), and a host name instead of a numeric address crashes the client (C48_refuted_host). Unix only."
  },
  {
   "property": "C49",
   "status": "partial",
   "theorems": [
    "C49_partial",
    "C49_computed",
    "C49_refuted"
   ],
   "note": "Proved for paths given by components: every computed name is an ending of the path and different from every other file's; exactly when it is computed. A path that is the end of another's makes the code panic (C49_refuted)."
  },
  {
   "property": "C50",
   "status": "proved",
   "theorems": [
    "C50"
   ],
   "note": "for every valid UTF-8 message"
  },
  {
   "property": "C51",
   "status": "partial",
   "theorems": [
    "C51_concat",
    "C51_groups",
    "C51_partial",
    "C51_refuted"
   ],
   "note": "Fragments concatenate to the label for every search and every answer of the regex crate; on searches of plain words nothing crashes and exactly the first, longest occurrence of the words is highlighted; nested groups have the ranges of their own parentheses (C51_groups). Refuted in general: a search with its own group crashes."
  },
  {
   "property": "C52",
   "status": "partial",
   "theorems": [
    "C52_partial",
    "C52_span",
    "C52_refuted",
    "C52_refuted_lines",
    "C52_case"
   ],
   "note": "Exactly the matching entries, best first, for plain words, labels below 8 MiB and words on one line; refuted: a parenthesis crashes, words on different lines of a label do not match."
  },
  {
   "property": "C53",
   "status": "partial",
   "theorems": [
    "C53_partial",
    "C53_meaning",
    "C53_refused",
    "C53_refuted"
   ],
   "note": "a shown choice (or any text in a shown prompt) is handled exactly as the request it stands for, everything shown stands for something, anything else is refused with -32602 and no effect; C53_refuted: prompts not opened yet refuse every text"
  },
  {
   "property": "C54",
   "status": "partial",
   "theorems": [
    "C54_partial",
    "C54_refuted"
   ],
   "note": "For every list whose items can be converted; an item whose text contains a NUL byte makes the call panic (C54_refuted)."
  },
  {
   "property": "C55",
   "status": "partial",
   "theorems": [
    "C55_partial",
    "C55_refuted"
   ],
   "note": "Everything but the last clause: a too small buffer is reported but the message is lost (C55_refuted). Negative lengths are undefined behaviour, not modelled."
  },
  {
   "property": "C56",
   "status": "partial",
   "theorems": [
    "C56_view_partial",
    "C56_menu_partial",
    "C56_hint_partial",
    "C56_narrow_refuted",
    "C56_status_refuted",
    "C56_rows_refuted",
    "C56_menu_refuted",
    "C56_selected_refuted",
    "C56_hint_refuted",
    "C56_echo_refuted",
    "C56_char_refuted"
   ],
   "note": "Views (lines of printable ASCII, or of any characters but control characters if they fit, C56_char_refuted otherwise), menus and hints of any characters but control characters that fit are drawn exactly (entries of printable ASCII are cut), one row each, within the screen; the refuted theorems show, for all sizes, when the client panics, scrolls or hides the selected entry (narrow terminals, long status, item header on the last row, long menus, empty hints, split characters)."
  },
  {
   "property": "C57",
   "status": "proved",
   "theorems": [
    "C57",
    "C57_requests",
    "C57_refuted"
   ],
   "note": "server output and client requests, any payload; C57_refuted: StdioClient::run writes no newline between the messages it relays"
  },
  {
   "property": "C58",
   "status": "partial",
   "theorems": [
    "C58_refuted",
    "C58_partial"
   ],
   "note": "The claim as stated is false: C58_refuted shows that with more than 100 files the command loop is never reached, whatever the scripts, the disk and the files (the queue of notifications is bounded and nobody reads it yet). C58_partial: for readable files the exact threshold, one queue slot per file on top of the notifications sent while starting; below it all files are open when the loop starts, above it the program waits for ever. Missing: the refuted part, and files that cannot be read (see C36). StandaloneDemo.C58_demo instantiates both sides."
  },
  {
   "property": "C59",
   "status": "proved",
   "theorems": [
    "C59_overlap",
    "C59_overlap_symmetric",
    "C59_contains",
    "C59_offset_range_len"
   ],
   "note": "All pairs of ranges."
  },
  {
   "property": "C60",
   "status": "proved",
   "theorems": [
    "C60_decoded_text",
    "C60_decoded_text_debug",
    "C60_decoded_range",
    "C60_cut_character_refuted"
   ],
   "note": "All histories of edits/undo/redo on character boundaries; debug profile for deletions inside the document. C60_cut_character_refuted: the boundary condition is necessary."
  },
  {
   "property": "C61",
   "status": "proved",
   "theorems": [
    "C61_cursors_survive"
   ],
   "note": "Every reachable state."
  },
  {
   "property": "C62",
   "status": "proved",
   "theorems": [
    "C62_message",
    "C62_error",
    "C62_debug",
    "C62_message_log",
    "C62_error_log",
    "C62_debug_log"
   ],
   "note": "Addressees, echoes and frame: every reachable state (C62_message, C62_error, C62_debug); the text of the log: every state reached without appending the empty text, any text, both profiles (C62_*_log). Appending the empty text corrupts the piece table (finding in DESIGN.md)."
  },
  {
   "property": "C63",
   "status": "partial",
   "theorems": [
    "C63_partial",
    "C63_refuted"
   ],
   "note": "For echo, info, menu, status and view events without NUL bytes and with 32-bit numbers; hints, responses and unknown notifications crash (C63_refuted)."
  },
  {
   "property": "C64",
   "status": "proved",
   "theorems": [
    "C64"
   ],
   "note": "Each line handled is answered once, in order, with its identifier."
  },
  {
   "property": "C65",
   "status": "partial",
   "theorems": [
    "C65_partial",
    "C65_refuted"
   ],
   "note": "For every interleaving in which no menu opens, the requests sent followed by those still waiting are exactly those asked for, in order. Refuted in full: Enter, Backspace, arrows and other keys are dropped outside menus and Ctrl-X panics."
  },
  {
   "property": "C66",
   "status": "partial",
   "theorems": [
    "C66_partial",
    "C66_keys",
    "C66_refuted",
    "C66_reopened"
   ],
   "note": "Holds for all key sequences when each answer arrives before the next key; in a menu the arrows, Escape and Enter do what they say, from every state (C66_keys). Refuted: two quick characters ask for searches that each miss the other, and an answer arriving after Escape reopens the menu."
  },
  {
   "property": "C67",
   "status": "partial",
   "theorems": [
    "C67_partial",
    "C67_screen",
    "C67_refuted"
   ],
   "note": "For every interleaving without menus or hints; C67_screen: the whole painted screen once everything is handled. Refuted with a menu: a view message clears the screen and draws the view while the menu stays open. The lines of the screen are printable ASCII, or any characters but control characters if they fit."
  },
  {
   "property": "C68",
   "status": "partial",
   "theorems": [
    "C68_partial",
    "C68_absent",
    "C68_join",
    "C68_safe",
    "C68_refuted"
   ],
   "note": "Proved for every history without scripts sent by clients and for session names that can be written in a Lua string as they are, for any order of pairs; C68_safe: no crash unless a key deletes the selection or jumps to the end of a line. Missing: C68_refuted, a session name with a double quote makes every key refused (Lua refuses the table of the session)."
  },
  {
   "property": "C69",
   "status": "partial",
   "theorems": [
    "C69_partial",
    "C69_unframed",
    "C69_refuted",
    "C69_shipped"
   ],
   "note": "Proved for ASCII lines with a title at least two shorter than the longest line, and for the boxes of the program. Missing: C69_refuted, the first row sticks out when the title is the longest line, and lengths are counted in bytes."
  },
  {
   "property": "C70",
   "status": "proved",
   "theorems": [
    "C70",
    "C70_oneshot"
   ],
   "note": "For any Lua; runs that panic are excluded by the hypothesis that the run ends."
  },
  {
   "property": "C71",
   "status": "partial",
   "theorems": [
    "C71_partial",
    "C71_crash_refuted",
    "C71_race_refuted",
    "C71_hand_refuted",
    "C71_late_refuted",
    "C71_directory_refuted"
   ],
   "note": "Proved when starts and stops do not overlap and nothing crashes: nobody fails, one server per session, bounded number of steps. The full claim is false: after a crash the socket stays and nobody can join again; two clients starting together, or a server started by hand, remove the socket of the running server (bind fails, the error is dropped, and the cleanup removes the path); a client connecting while the last one leaves is never served; a stopping server removes the directory under another one."
  },
  {
   "property": "C72",
   "status": "partial",
   "theorems": [
    "C72_kept_partial",
    "C72_order",
    "C72_refreshed",
    "C72_alone",
    "C72_one_client",
    "C72_careful_partial",
    "C72_deleted_refuted",
    "C72_replaced_refuted",
    "C72_opened_refuted",
    "C72_merged_refuted",
    "C72_joined_refuted"
   ],
   "note": "Proved for every reachable state, client and call except the calls of other clients listed in FreshSpec.v (unseen), for which the full statement is false of the code (refuted with concrete sessions); a single client's display is always current (C72_alone), unless it deletes from an emptied file. C72_one_client: for a whole server with the scripts of the program, one client and files nobody else writes, after every event of every run."
  },
  {
   "property": "C73",
   "status": "partial",
   "theorems": [
    "C73_partial",
    "C73_complete",
    "C73_progress",
    "C73_ends",
    "C73_sequential",
    "C73_quit",
    "C73_lost_refuted"
   ],
   "note": "At every moment of every interleaving the lines read are answered once, in order, with their identifiers, and the notifications printed are those addressed to the client, in order (C73_partial); when the program has ended every line was answered (C73_complete); it goes on unless a call panics (C73_progress) and every schedule is finite (C73_ends). Not true of the code: notifications queued at the end of the input may be lost (C73_lost_refuted), and quit does not end the program; the next edit request panics (C73_quit). A call that fills the queue waits at its end instead of in the middle."
  },
  {
   "property": "C74",
   "status": "partial",
   "theorems": [
    "C74_partial",
    "C74_same",
    "C74_output",
    "C74_ends",
    "C74_glued_refuted",
    "C74_result_refuted",
    "C74_lost_refuted"
   ],
   "note": "The server reads exactly the requests of standard input, in order, unchanged (C74_partial, for complete writes and parameters without floating-point numbers); handling the relayed line equals handling the line itself (C74_same); standard output holds the server's messages in order, each reading back the same (C74_output); what can end the program (C74_ends). Not true of the code: messages are not separated (C74_glued_refuted), a successful answer loses its result (C74_result_refuted), queued requests are lost when the server ends (C74_lost_refuted)."
  },
  {
   "property": "C75",
   "status": "partial",
   "theorems": [
    "C75_requests",
    "C75_answered",
    "C75_screen",
    "C75_current",
    "C75_drain",
    "C75_refuted"
   ],
   "note": "Server and any number of clients over byte streams, all interleavings. C75_requests: the lines the server reads are the requests made, in order, and the n-th reply answers the n-th request; C75_answered: once everything is read each request has exactly one reply; C75_screen: the screen of a client that has read everything; C75_current: with C72's 'current', the display is what the view shows; C75_drain: such a state is reachable by writing and reading alone. Not true of the code: a client that has just joined and read everything displays nothing (C75_refuted). Assumes that numbers in notifications fit into 64 bits (fits), that no write to the client failed (sound), and complete lines on the streams."
  },
  {
   "property": "C76",
   "status": "partial",
   "theorems": [
    "C76_names",
    "C76_partial",
    "C76_crash_refuted",
    "C76_hand_refuted"
   ],
   "note": "Names: all reachable states. Completeness for calm histories (no crash, one client at a time); refuted after a crash and with servers started by hand."
  },
  {
   "property": "C77",
   "status": "partial",
   "theorems": [
    "C77_functions",
    "C77_imports",
    "C77_names_partial",
    "C77_names_refuted",
    "C77_shipped",
    "C77_usable_refuted"
   ],
   "note": "Functions and imports for every configuration. Distinct names for camel-case types none of which is another with the prefix before it (refuted without); the shipped configuration meets that. Usability of the shipped interface refuted for a lens's lines and a menu's entries."
  },
  {
   "property": "C78",
   "status": "partial",
   "theorems": [
    "C78_same",
    "C78_progress",
    "C78_count",
    "C78_finishes",
    "C78_drain",
    "C78_stall",
    "C78_refuted"
   ],
   "note": "Proved: refinement to C75's system for every socket size, byte accounting, progress, draining. The last clause is false of the code: C78_refuted (from every idle state, for every socket size) with C78_stall."
  },
  {
   "property": "C79",
   "status": "partial",
   "theorems": [
    "C79_program",
    "C79_screen",
    "C79_informed",
    "C79_one_user",
    "C79_text"
   ],
   "note": "All interleavings of server, other clients and the terminal. C79_program: a run of the program is a run of the system (C75) and of the terminal (C67) exchanging the same messages. C79_screen: the screen, if the client is 'current' (C72 says when it is). C79_informed, C79_one_user: with the shipped scripts, one client, keys that run no script and files nobody else writes it always is. C79_text: the same screen in terms of the texts of the buffers alone: titles, and the lines of each lens, of whatever view the user looks at. Lines: printable ASCII, or any characters but control characters if they fit (C79_screen). Missing: menus and hints; non-ASCII titles; longer non-ASCII lines (C56_char_refuted); messages plus status wider than the screen; a view whose items end exactly on the last row but one (C56's defect)."
  },
  {
   "property": "C80",
   "status": "proved",
   "theorems": [
    "C80_last_file"
   ],
   "note": "for one client with the shipped scripts, a file that is valid UTF-8 and whose lines are printable ASCII, or any characters but control characters if they fit, and no key typed; CedFileDemo shows a run that meets all hypotheses. Lines as long as the screen or longer are shown as a prefix of the line"
  },
  {
   "property": "C81",
   "status": "partial",
   "theorems": [
    "C81_safe",
    "C81_owned",
    "C81_others",
    "C81_events",
    "C81_texts",
    "C81_status",
    "C81_views",
    "C81_lenses",
    "C81_leak_refuted",
    "C81_version_refuted",
    "C81_order"
   ],
   "note": "all but the last clause, which is false: strings, entries of menus and lines of lenses cannot be freed (C81_leak_refuted: exactly those ever handed over are still allocated)"
  },
  {
   "property": "C82",
   "status": "partial",
   "theorems": [
    "C82_opened",
    "C82_prompt",
    "C82_searched",
    "C82_unopened_refuted"
   ],
   "note": "Opened menus and prompts: proved for every reachable editor (labels UTF-8, the regex of the empty search compiles). Searching: proved with 'the entries as of the last time anybody opened this menu' in place of what exists now, which is false in general: the entries are shared by all clients and refreshed only by an empty search, so a menu nobody opened finds nothing (C82_unopened_refuted, finding 39). Plain searches only (C52)."
  },
  {
   "property": "C83",
   "status": "partial",
   "theorems": [
    "C83_kept",
    "C83_reread_partial",
    "C83_path",
    "C83_race_refuted"
   ],
   "note": "Kept: proved for all histories (the name is not *debug*). Read again: proved for buffers that read as their bytes do when the computed script covers both texts (as C14), for a file written after everything the session did so far. False for a file written between being read and the clock being read (C83_race_refuted, finding 40)."
  },
  {
   "property": "C84",
   "status": "proved",
   "theorems": [
    "C84_exact",
    "C84_meaning",
    "C84_handled",
    "C84_received",
    "C84_extra",
    "C84_twice",
    "C84_utf8"
   ],
   "note": "For every line and every spelling. serde_json is a dependency and its reader is transcribed, floats kept as written and never out of range (DESIGN 2); the theorem shows the transcribed reader accepts exactly RFC 8259 up to 127 levels and that the project's own decoding does not depend on the spelling."
  },
  {
   "property": "C85",
   "status": "partial",
   "theorems": [
    "C85_starter_partial",
    "C85_shared_refuted"
   ],
   "note": "Proved: in calm histories the client that starts its session's server gets onto it, and its FILEs are those of its directory; absolute FILEs always. Missing: the same for a client that joins a running session: false, refuted by C85_shared_refuted (the directory of the starter is used, and a missing file ends the server)."
  },
  {
   "property": "C86",
   "status": "partial",
   "theorems": [
    "C86_pieces",
    "C86_whole",
    "C86_cut",
    "C86_fragment",
    "C86_survives",
    "C86_garbage",
    "C86_messages",
    "C86_messages_cut",
    "C86_refuted"
   ],
   "note": "Proved for the server (all pieces, every cut: whole messages only; the rest of a message is refused and only logged) and, for clients, for all pieces and every cut that leaves text. Missing: a client reports a connection that is reset, or closed inside a character: false, it panics (C86_refuted). Message texts are assumed UTF-8 (Rust strings are)."
  },
  {
   "property": "C87",
   "status": "partial",
   "theorems": [
    "C87_given_back_partial",
    "C87_endings",
    "C87_shell",
    "C87_silent_refuted",
    "C87_signal_refuted",
    "C87_all_or_nothing_refuted"
   ],
   "note": "Proved: however the client ends, but for a signal, mode, screen, contents and cursor are given back, if the terminal lets itself be given back. Missing: that a failure can be read (false: C87_silent_refuted), signals (false: C87_signal_refuted), a failure to give back the mode (false: C87_all_or_nothing_refuted)."
  },
  {
   "property": "C88",
   "status": "partial",
   "theorems": [
    "C88_one_name_partial",
    "C88_relative_names",
    "C88_absolute_names",
    "C88_refuted"
   ],
   "note": "Proved: as long as no two of the names used lead to one file (all names relative, or all absolute), everybody who edits it has one buffer. Missing, because false: names that lead to the same file (C88_refuted: two buffers, what is deleted from one stays in the other)."
  },
  {
   "property": "C89",
   "status": "partial",
   "theorems": [
    "C89_understood",
    "C89_only",
    "C89_daemon",
    "C89_equals_refuted"
   ],
   "note": "Both directions: every spelling of sensible wishes runs what they ask (C89_understood), and whatever runs is such a spelling (C89_only). The command a client starts its server with is understood as a server (C89_daemon), of the same session unless its name begins with an equal sign: then of another (C89_equals_refuted). clap 2.33 is transcribed as a contract; arguments that are not UTF-8 are left out."
  },
  {
   "property": "C90",
   "status": "partial",
   "theorems": [
    "C90_said",
    "C90_rpc_said",
    "C90_asked",
    "C90_rpc_asked_partial",
    "C90_refuted"
   ],
   "note": "Protocol: all messages of the server and all requests of the clients, in every run. JSON-RPC 2.0: all messages of the server, and all requests but quit and exec, whose parameters are null and a text (C90_refuted). How values are spelled as text is C84."
  },
  {
   "property": "C91",
   "status": "proved",
   "theorems": [
    "C91_does",
    "C91_fails",
    "C91_view",
    "C91_exec",
    "C91_keys",
    "C91_keys_failing"
   ],
   "note": "All requests that change the editor directly. The changes themselves are the calls of the core, whose effects are C29 to C35; menu and menu-select are C82 and C53. The reason of a refused exec or key is the text of Lua's error."
  }
 ]
}