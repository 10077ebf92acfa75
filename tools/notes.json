{
 "C01": "False with set_selection_tail, which clamps the tail with the line of the cursor (refuted). C01_exact and C01_histories_exact: a history panics exactly when it deletes a selection whose tail is after the end of the line of the cursor, which only happens after a set_selection_tail. Proved for all histories without set_selection_tail, and for all those in which the given tails are positions of the text (C01_tails_in_text).",
 "C02": "Full: from, Display, iteration, is_str, set_str, is_empty, push_char.",
 "C03": "Full: refinement to text and cursor offset.",
 "C04": "Delete left and type-then-delete full. Delete below is false at the end of a text whose last line is empty: the previous line feed is removed (refuted); exact behaviour proved in all cases.",
 "C05": "Full.",
 "C06": "Full, for any width oracle.",
 "C07": "Full: exact targets of moves and deletions.",
 "C08": "Full.",
 "C09": "False for multi-line selections and for in-line selections reaching the end of a non last line (refuted). Proved: exactness for in-line and whole line selections, no panic and no loss of non line feed chars outside of the selection in all cases. C09_row, C09_rows and C09_cases: exactly which lines are left by every wide selection, and where the cursor is: whole lines are removed unless there is just one of them, the char at the end is kept when the selection goes over several lines.",
 "C10": "Lines part full. 'Cursor stays on the same char' is false when the neighbour is shorter (refuted); exact cursor given.",
 "C11": "Full.",
 "C16": "Full. Made columns: for strings without backspace (a backspace counts -1 in the code).",
 "C17": "Proved for all histories of calls within the documented restrictions (gentle strings and fillings of width 1), without styled tab char; exact remaining count without backspaces. Refuted: queue_char sends a tab as is; backspaces aren't given back.",
 "C18": "Strings, gentle strings, repetitions and fills: full. Refuted for chars (strict comparison drops a char filling exactly the remaining columns) and null-width strings at the limit.",
 "C19": "Full.",
 "C20": "Full.",
 "C36": "Composition, precedence and associativity full; the empty style isn't a left unit for a style having an underline color (refuted). C36_setters: each setter of a compound style changes what it's made for and nothing else.",
 "C37": "False: blend_with blends twice the foreground and never the background (refuted); actual behaviour proved, as well as the documented 'weight 0 changes nothing'.",
 "C38": "Proved for all histories of setters; false with blend_with, which leaves the cached styled char unchanged (refuted).",
 "C64": "Full.",
 "C65": "Full.",
 "C39": "Exact conditions under which the thumb touches the bottom; the claims on the last row are false for the faithful model (see the refuted theorems): the last row may be just below the area, one-row areas, small areas, tall contents.",
 "C40": "Functional specification of every scrolling call. False for i32::MIN (negation overflow), a null height (wrong boolean) and a MadView resized taller. The f64 numbers of pages are modelled exactly, with NaN and infinities. C40_floor_ceil: the roundings used are the floor and the ceiling.",
 "C41": "Page downs from the top cover all lines and reach the end; page up and page down undo each other.",
 "C42": "Text view and input field; false above 65535 lines (truncation to u16). C42_exact and C42_field_exact: for any number of lines, the scrollbar is there exactly when this number, as a u16, is over the height; C42_panic_example shows a scrolled text of 131333 lines for which it panics.",
 "C49": "Areas whose right and bottom fit in u16. A too big padding panics (documented in the code), and contains overflows at the last column of u16. C49_contains_exact, C49_edges_exact, C49_pad_exact and C49_max_width_exact say exactly when each function panics, for all areas.",
 "C66": "Rows drawn by a text view, relative to the rendering of a line. Panics for a null width with a scrollbar. C66_exact says exactly when drawing panics.",
 "C21": "Full functional specification of the balancing of columns, from any sequence of seen cells.",
 "C22": "The reduction isn't proportional in the code's second step (equally wide columns get 3 and 100): refuted. Proved: averages are kept when possible, cuts go to the widest first, and the flag is exact but for one column tables.",
 "C23": "Proved when no char is wider than what the lines after the first one can hold (always the case for paragraphs, headers and code with chars at most 2 wide). Refuted otherwise: wide char in a quote, list item of depth 1, at width 3. C23_overflow: whatever the chars, a line is too wide only when made of one char which can't fit; C23_exact tells exactly when all lines fit.",
 "C24": "Only whitespaces are dropped, styles and order kept: full. No gluing: proved with single blanks of width 1 and visible chars; refuted with several blanks (aaaa, 3 spaces, b at width 5 gives aaaab).",
 "C25": "Kinds, spacing and cached lengths: full. No empty line: proved when all chars fit beside the bullet and compounds aren't empty; refuted otherwise (line with only the bullet).",
 "C26": "Exact error condition and absence of panic when bullets fit between the margins. C26_exact tells exactly which lines panic: those too large whose bullet does not fit between the margins. The if and only if of the error is refuted (no line to wrap: no error), and a list item of depth 2 at width 3 panics (refuted).",
 "C67": "Full.",
 "C30": "Cells which are list items can be wider than their column (C30_cells_fit_refuted). C30_printed_partial: every line of a laid out table prints exactly on the width.",
 "C31": "Proved, with the text equal but for whitespaces removed by wrapping.",
 "C32": "Partial: no panic when the width allows all the columns, or for full rows or short cells. C32_exact and C32_text_exact tell exactly which tables and texts panic (cells whose bullet takes at most 3 columns). Refuted in general: when columns are removed, a row shorter than the kept columns with a cell to wrap panics.",
 "C33": "Proved for texts whose rules have the Other position, which is the case of all texts to format.",
 "C34": "Justification proved. Refuted: wrapped lines of code keep the spacing of the block and are printed wider than the width (C34_wrapped_refuted). C34_block and C34_block_exact: in the formatted text, all the lines of a block, wrapped or not, take the columns of the biggest source line with the margins, or the asked width if it's greater (C83 lets it be used for a block inside a text).",
 "C68": "Proved.",
 "C69": "Line conversion, prose kept, lengths, printed width of every line of a text. Missing in C69_printed_partial: sources with code lines larger than the width, lead and margins larger than the width. C69_overflow: whatever the source, a line out of the tables is too wide only when made of one char.",
 "C27": "Partial: fits when there is place for an ellipsis after the bullet or quote mark. No panic for tokens with something in their middle and (for center/right) without empty compounds; for the alignments, C27_aligned_exact tells exactly which composites panic. Refuted in general: two wide chars panic, an empty compound panics when aligned right, prefixes are not counted.",
 "C28": "Proved, for all alignments and for the internal ellisions. Fitting again is the identity.",
 "C29": "C29_exact gives the number of columns for every composite, width and alignment. False because of the margins, which are added to the width (C29_margin_refuted), and of bullets and quote marks when there's no place for them (C29_mark_refuted); the call can panic as told in C27.",
 "C35": "All that is written is specified char by char (C35_drawn), and C35_panics tells exactly which lines cannot be written (a header of level 0; the continuation of a list item of depth 255 with the block indentation, where depth + 1 overflows). The width is exact when the content fits in its spacing, skin chars take one column, special chars have the width of what they replace and rules have columns; otherwise refuted: a rule without column takes 2 columns, replacements, spacings smaller than the content.",
 "C43": "Proved for all histories. (A filter may leave a hidden row selected: example.)",
 "C44": "Proved for all lists, filters, selections and directions; the scroll is then the one of make_selection_visible (C45).",
 "C45": "Exact panic condition, exact scrolls, invariant scroll <= rows, visibility when the area has 5 lines or more. Refuted: subtraction underflow when the last visible row is selected at the top, scrolling down a short list, i32::MIN, heights 3 and 4, list just fitting scrolled by one, empty area, bottom of a filtered list.",
 "C46": "Proved for bounds in order and below 2^31. Refuted when max < min (panic) and when max is usize::MAX (width usize::MAX). C46_exact says exactly when it panics, for bounds which are i32.",
 "C47": "Proved in chars, position by position, for all columns, titles and cells; in columns only for chars of width 1 (cells are measured in chars: refuted with wide chars).",
 "C48": "Sorted, stable, inserted in place, for all histories with a total order. Refuted: the selection isn't moved with its row; setting an order doesn't sort the rows already present.",
 "C70": "The whole drawing is specified. Refuted: the scrollbar is a column after the area, the thumb place counts the top of the area twice and mixes raw and displayed indexes, the separator is drawn below an area of height 1.",
 "C12": "fix_scroll is fully specified and the cursor is drawn where it should be when the width is at least 4 and the row isn't the one just below the window. Refuted: moving down to the row just below the window doesn't scroll, Backspace and Delete keys don't scroll, widths under 4, password mode with wide chars.",
 "C13": "Rows, no panic and cursor position in the area. Refuted: the returned position is one column left of the drawn cursor when there's a left ellipsis; an area of 1 column with a scrollbar overflows; tabs are written as is.",
 "C15": "Exact position of a click for all widths, always in the text; the drawn char at this place when no wide char is cut. Refuted: second column of a wide char, wide char cut by the scroll.",
 "C71": "Exact display of each row, scrollbar style, and independence of the display from the chars of a password.",
 "C14": "Exact tables of the keys and mouse events; false on a key leaves all but the selection; unfocused fields ignore keys; clicks outside do nothing; new-line keys insert a line break; single-line fields stay so. Refuted: apply_keycode_event isn't guarded by the focus, apply_event ignores the new-line keys, the Char('\\n') key adds a line.",
 "C72": "By induction on the histories, with areas of at least 1 column on the screen (a null width panics, C72_null_width).",
 "C50": "The area must have a right and a bottom below 65536 (otherwise Area::right and bottom can not be computed; C50_panics tells exactly when drawing panics). The rectangles smaller than 2x2, out of the statement, are shown in C50_narrow and C50_flat to be drawn out of their area.",
 "C63": "Exact model of the binary32 operations used. The width and completeness hold for the widths which are f32 numbers, among which all those up to 2^24; the width is rounded to a f32, so that they are false for other ones (C63_complete_refuted, C63_too_long_refuted). Monotonicity, no panic and emptiness at 0 hold for all widths; C63_precise bounds the error. C63_padded: formatted with a width in the braces (Formatter::pad is modelled), it takes exactly it.",
 "C51": "False for the 7 colors whose printed name is read as another color or as nothing (C51_read_back_refuted: DarkBlue, DarkCyan, DarkYellow, DarkGrey, Black, White, Reset). C51_exact gives what every color is read back as, C51_read_back_partial proves it is the same color exactly for the others. The regexes are modelled as functions on chars; the Unicode classes of the regex crate are a parameter with its ASCII part known. C51_injective: distinct colors have distinct texts.",
 "C52": "False for the colors of C51, the underline color, and the attributes which aren't printed (Reset, SlowBlink, RapidBlink, the No ones): C52_exact gives the style which is read back for every style, C52_read_back_partial characterises the unchanged ones. C52_write_style_tokens_refuted: write_style_tokens glues its tokens. C52_attribute_texts: distinct printed attributes have distinct texts.",
 "C53": "Exact results for every style and char (C53_line_exact, C53_char_exact) and characterisation of what is read back unchanged; false for margins over 65535, and for chars which are spaces, parentheses or digits.",
 "C54": "serde and its formats are not modelled: documents are trees of texts, sequences and maps, with entries in any order. C54_exact gives the skin read back for every skin, C54_read_back_partial tells exactly when it's the same, C54_defaults proves it for the default skins. The indentation mode, the special chars, the unnamed table borders, and part of the simple scrollbars are lost.",
 "C55": "Proved for every execution of the reading thread and of the application: what is delivered is exactly the cut of the stream (C55_cut, C55_exact), in order (C55_received), once when nothing is lost (C55_once_partial). C55_defaults says what the default options deliver: everything but the mouse moves and the keys which complete no combination. False in one case: an escape sequence is dropped when 10 are waiting unreceived (C55_full_refuted); C55_losses shows it's the only one as long as the source isn't dropped. The combiner of crokey is an arbitrary state machine.",
 "C56": "C56_form: all delivered sequences have the form. C56_runs_partial: a run of that form is delivered as one sequence when it doesn't begin inside an unfinished one; false otherwise (C56_runs_refuted).",
 "C57": "For every execution, whatever the times given by the clock.",
 "C58": "One event per unblock when unblock is called once per received event (C58_one_by_one_partial), and the exact credit whatever the calls (C58_credit). False when unblock is called in advance (C58_early_unblock_refuted, C58_early_quit_refuted). Also: the count, the panic of unblock after the end of the thread, no deadlock and no endless loop of the thread.",
 "C73": "For every execution of a source, on what the application receives.",
 "C59": "For every interleaving of the calls, of the threads, of time and of the receiver. C59_exactly: the beam has sent its count when it ends, and can reach its end from every reachable state by its own steps and time only. C59_missions states it for the three constructors: one tick, several ticks, ticks without end.",
 "C60": "At most one tick after stop_beam or stop_all_beams returned (one is reachable: C60_one_more); the thread ends in at most 3 steps which never wait; the others are unchanged; no call blocks in any reachable state.",
 "C74": "Times are natural numbers given by an arbitrary clock; recv_timeout doesn't return before its deadline.",
 "C61": "C61_answer: exactly when a key is returned, what has been printed and what remains of the input; C61_error for failures of the reading. The typed text is the line without its trailing whitespace. Rendering of the prompt not included (trace of the texts).",
 "C62": "False without default: at the end of the input the question is asked forever (C62_eof_refuted). C62_iff characterises the inputs for which it returns, C62_ends_partial bounds the number of reads.",
 "C75": "Both forms of the macro.",
 "C76": "End to end, from the parsed markdown to the cells of the screen. False when the margins of a style need exactly the width of the area (C76_margins_refuted: the text is formatted for one column less, without margins, but written with them), for areas of 3 columns or less (C76_narrow_refuted) and null widths (C76_null_width_refuted). Proved for areas of at least 6 columns and sources having enough place (area_source).",
 "C77": "End to end, for terminals of at least 5 columns and sources having enough place (area_source). False for code lines larger than the terminal (C77_code_refuted).",
 "C78": "The semantics of the crate regex is the documented one, for the syntax used in the source; C78_matches and C78_leftmost relate it to a declarative definition. Trusted: that definition, and that no char is both a white space and a decimal digit.",
 "C79": "C79_forms and C79_only are the two inclusions. The three names darkblue, darkcyan and darkyellow of the code are read as blue, cyan and yellow (C51).",
 "C80": "All outputs are followed by a model of the style of the terminal. The commands fill_bg, queue_fg and queue_bg, which are there to set a color, are out of the claim. The color of underlines is not followed. C80_colors: setting a color with a crop writer writes nothing and changes just this color.",
 "C81": "Attributes are taken as part of the colors: they never change the layout. skin_no_style has another shape than the default skin (its first header is not centered), see C81_other_shape.",
 "C82": "The scrollbar keeps its own characters in a skin limited to ASCII, so a view having one is not in ASCII (C82_ascii_example). A word made of just an ellipsis is written in the style of the ellipsis.",
 "C83": "Stated for the formatted text and for the printing; C83_cut shows that cutting a table or a block of code does change the result.",
 "C84": "Proved, for all pairs of widths, for chars of one column without successive blanks, for lines which all begin at the same column (paragraphs, headers, code, quotes, items in block mode) and without margins. Refuted otherwise: several blanks, wide chars, items whose first line only is indented, margins forgotten in narrow areas. C84_words_partial: also true with wide chars and first-line-only indentation when the words fit, the blanks are single and the text doesn't end with a blank.",
 "C85": "One round trip settles every skin except those whose rich scrollbar is read as a simple one (C85_once_refuted: the bold of a thumb is kept by the first loading and lost by the second); two round trips settle every skin (C85_twice). C85_exact: exactly when one is enough.",
 "C86": "",
 "C87": "Proved for text views and mad views, and for lists without selection. Refuted for a list with a selection: it is scrolled back near the selection by each call.",
 "C88": "Any chars, styles, blanks, kinds and indentations. C88_optimal_partial: at least as few lines as any fitting layout, for texts not ending with a blank (needed: C88_trailing_refuted, a clean cut keeps a last blank on its own line). C88_reached: when words fit and blanks are single, some layout has exactly as many lines. C88_pieces: every text has words.",
 "C89": "C89_words: the tokens of a text made of words (with groups like rgb(1, 2, 3)) separated by blanks. C89_tokens, C89_compound_style, C89_line_style, C89_styled_char: what any list of tokens means, and the error of a refused text. C89_document, C89_order, C89_last, C89_scrollbar: documents. The formats (JSON, TOML...) are external; a document is a tree of texts, sequences and maps.",
 "C90": "Refinement: the content without selection is bisimilar to a two-string editor (S_Editor.v), for single operations, histories, keys and field methods. Selecting operations (make_selection, set_selection_tail, select_word_around) are outside: C07, C08, C09 tell about them.",
 "C91": "C91_fixed: the fixed points of the wrapping are exactly the lines which are all in place. Missing in C91_again_partial: chars without enough place, in front of which empty lines are added each time (C91_again_refuted). Missing in C91_wider_partial: margins which appear with the width (C91_wider_refuted).",
 "C92": "Each char has exactly the look of a table written apart from the model, for the three skins with colors; all what is printed with them is readable; they have the same layout.",
 "C93": "Deleting a wide selection is described by C09; it is the only operation left out here.",
 "C94": "Texts, views, fields and rectangles are proved with the hypotheses of C76, C13 and C50. Lists are partial: nothing changes at their left, above and under, but they erase what is at the right of their area where they have no row (C94_list_refuted), and leave what was there in the unused columns of their area (C94_list_again_refuted). The terminal is large enough, has no control chars, and half of a wide char may be overwritten.",
 "C95": "C95_lines: the formatted lines have just the visible chars of the source. C95_rows, C95_area: what is read in the area. C95_view: rows of a scrolled view. The lines are those of readable_line: quotes and code (marks repeated on each row, blanks) and tables (borders) are left to C76, which tells the cells themselves. C95_field_rows, C95_field: input fields.",
 "C96": "C96_given: any list of events. C96_any: any time of any execution, any combiner. C96_keys, C96_text: when it is known which keys complete a combination (takes). C96_read: the drawn field reads as the typed text. The keys selecting with shift and the mouse are left out (C14, C93 tell what they do).",
 "C97": "The hypotheses on the text are the ones of C69_printed (fitting_source). The ASCII borders have no arms, their chars are given by C97_lines.",
 "C98": "C98_anywhere: all requests, all rows. C98_pages: page downs from the top, the whole source is read, nothing twice. C98_resized: another width restarts at the top. The columns read are the ones of the text: the last column of the area is left to the scrollbar when there is one. Tables, quotes and code are out of readable_line, as in C95. Resizing the height only is out of it (C40_mad_resize_refuted).",
 "C99": "Spaces aside: whitespaces may be dropped at line breaks and are added to complete the cells. The cells of the table are paragraphs, what the parser gives (area_source). No special render (no_special). All the rows of a line of the table must be in the area for its reading, partially shown lines are not told of here (C97 and C76 tell what is drawn).",
 "C100": "C100_list: all what is read of a list, line by line; C100_rows: the cells of each column from top to bottom; C100_history: after any history. Chars are narrow: cells are measured in chars by the code (C47_wide_refuted). The right of the lines, between the last column and the right of the area, isn't written by the code except on the lines without row, so nothing is told about it (C94_list_again_refuted).",
 "C101": "For texts drawn with the hypotheses of C76 (6 columns or more, margins not needing exactly the width, source lines having their place), all kinds of lines together: the unification of C95 (texts without quotes, code or tables) and C99 (one table). The blanks which are removed are the ones dropped by the wrapping (C24). Rows are read exactly, with their inner blanks, but for the number of spaces around them, which is only told for lines of code and tables.",
 "C102": "The terminal wraps at its last column as usual terminals do (the cursor waits at the end of a full row). Text without newline inside a line, as the parser gives. Same place needed in the width as for C77.",
 "C103": "Full property, for answers made of one paragraph. The making of inline templates by minimad isn't modelled: the three compounds they give are. C103_wide_example shows what the hypothesis on the width is needed for: the text of an answer is formatted for the whole width of the terminal, without the place taken by its key, so an answer which would be on a row without its key is cut anywhere by the terminal.",
 "C104": "Full property. C98 is about the lines which are read as they are, spaces aside, C104 about all kinds of lines, tables and code included.",
 "C105": "C105_picture gives what is seen in each cell of the text; C105_press, C105_drag, C105_double and C105_cut what the mouse changes of it. For chars of other widths see C15_displayed_partial and its refutations. The two places of a drag must be on chars of the text; a drag may go anywhere between them.",
 "C106": "On the terminal of S_Paint, with its style being the default one before. The look of a style put over others is stated in S_Look (last colors, all attributes) apart from the code; the color of underlines is not in the pens. C106_ellipsis shows why the source must be without the char of the ellipsis.",
 "C107": "C107_list gives the look of every part of a list; C107_marked says that a place of a line has the background of the selection exactly when its row is selected; C107_one that there is one marked line when the selected row is seen. The hypotheses are the ones of C100 and, for the last two, that the background of the selection is not one of the styles of the row and no style resets it.  C107_next: after any history, selecting the next or the previous row marks exactly the line of the closest row of the filter in this direction (area of at least 5 rows; if all the rows fit, the list must be at its top).",
 "C108": "C108_printed: `print_text` on the paper terminal of C102 (wrapping, of the width of the text), from the start of a row, with the default pen and blank cells from the cursor. The spec (S_PaperLook.v, `without_ends`) compares with a terminal holding the complete rows, whose looks are told by `looks_line` of S_Look.v (C106): each row is the same up to a column, from which the cells are the ones from before and the complete row only has blanks of the paragraph. The example uses a terminal whose blank cells have a background, so that these are told apart.",
 "C109": "C109_session: on the paper terminal; each text is still seen at the end, in its rows, as told by `text_seen` (S_Session.v: `reads_line` of C101/C102 and `looks_line` of C106/C108, compared with the terminal before the whole sequence). C109_screen: on a screen which scrolls. The sequence is any list of printings, each with its skin and width.",
 "C110": "C110_step: any operation on any content whose cursor is in its text, whatever the tail of its selection, does what the reference of S_Marked does, and panics exactly when it has no result; C110_runs: any history; C110_unique: the reference state tells the whole content. C110_keys: any sequence of keys with or without shift on a focused field; C110_mouse: any mouse event over a focused field. The reference of the deletion uses the vocabulary of C09 (row_left, rows_left).",
 "C111": "False with three columns (C111_three_refuted: from 30 to 31 columns the widths go from 8, 8, 10 to 9, 9, 9, because the rounding up of the gains of the first columns leaves less to cut for the last one). Proved for one or two columns (C111_two_partial) and for any number of columns whose cells have about the same width (C111_steady_partial). C111_total: the whole table is never narrower.",
 "C112": "C112_reading: the state after any groups of scrolling operations with a drawing after each; C112_reach: from any of these states, presses on up or on down and one more drawing show any source line not taller than the area. The hypotheses are those of C104 and C106 (usual skin, at least 6 columns, lines which fit, no ellipsis in the source); the resizings are out of this property (C40).",
 "C113": "C113_step: one operation; C113_kept: the exact numbers when the operation is not a deletion, a clearing or a replacement of the text; C113_runs and C113_lines: any history which does not panic (C01 and C110 tell when).",
 "C114": "C114_editing: any events, the bound B on lines and scroll only says that rows stay within u16. C114_keys: the same with the content told by the reference of C110. Chars of more than one column are out of these statements: what is drawn of them is in C71 and C94.",
 "C115": "C115_resized: the reference, the cells and the looks after any groups of operations. C115_place: where the place can be, the overscroll of C40_mad_resize_refuted being repaired by any scroll downwards. C115_reach: any line can still be reached. good_area is the hypothesis of C112 with room for the rows in u16.",
 "C116": "C116_working: any groups of calls; n is any number of lines which the text does not pass, for which the areas have room. C116_content: the content alone, for any history, also with wide chars. The keys given to apply_key_combination count as possible line feeds, since they may be new-line keys.",
 "C117": "C117_alone: non-interference for all interleavings. C117_settled: in separate cells, drawing a widget again changes nothing. C117_screen: with the hypotheses of C115, C116, C118 and C50, each widget is seen as it is. The cells of a list are the ones of C118, which may be out of its area (C94_list_refuted).",
 "C118": "With the hypotheses of C94_list_partial, which it makes precise: the cells are told exactly instead of by a half plane. The terminal is large enough.",
 "C119": "Composition of C55, C96, C114 and C116 for all executions. The chars take one column, the area has room for the lines which may be typed, and the terminal is large enough.",
 "C120": "The echo of what is typed is the one of a terminal in line mode: a line is shown where the cursor is, the enter key goes to the next row. It isn't part of the code: `dialog` places it before the message which answers the line. The lines shown must be narrower than the terminal, as for the answers in C103. Escaped chars of `{:?}` are those of the quantified `debug`.",
 "C121": "The application (giving the events, taking the focus from the other fields) is stated in `S_Form`: it isn't part of the code, which has no form. `C121_both_example` shows it's needed: pressing in a second field leaves the focus to the first one too, and both take the keys.",
 "C122": "The cells shown are those of the text; the cell of the scrollbar, when there is one, is told by C105 and C71. As in C121 the application isn't part of the code.",
 "C123": "C123_top: each cell is what its topmost layer draws on any terminal, or unchanged; C123_screen: a widget is seen as it is as long as those drawn after it are out of its cells, whatever was drawn before; C123_last: the widget drawn last is seen entirely.",
 "C124": "C124_area: the column; C124_screen: the screen while the application waits; C124_reach: any line can be brought on the screen; C124_leave, C124_ends: how it ends. The entering and leaving of the alternate screen and of the raw mode are not modelled, the screen being taken as empty when it is entered.",
 "C125": "C125_event: each event keeps the invariant and moves the focus as told; C125_run: all the sequences of events, from the start; C125_keys, C125_texts: what is changed; C125_tabs: the tab key. That the area of the view after a resize is the one of the event is in the lemma resize_sound, not in these theorems, which are relative to the area of the view. C125_label_refuted: the area of the label of the comments goes 6 rows below the terminal. The drawing and the real clipboard are not modelled: the answers of the clipboard are quantified."
}