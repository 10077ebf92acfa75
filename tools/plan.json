{
"C01": [
"`InputFieldContent` as a record, every method, `Panic` for indexing",
"invariant preserved by each operation, induction on histories"
],
"C02": [
"`from`, `insert_str`, `is_str` with the `Chars` iterator, `Display`",
"induction on the string; iterator shown to enumerate the flat text"
],
"C03": [
"same",
"refinement to a flat text with a gap (`before`, `after`)"
],
"C04": [
"same",
"refinement to the gap text; the case of an empty last line is expected false (refutation)"
],
"C05": [
"same",
"refinement to the gap text"
],
"C06": [
"columns as sums of oracle widths",
"characterisation of the target index as a least index"
],
"C07": [
"word loops with structural measure",
"induction on the run"
],
"C08": [
"`Range`, `Chars` on a selection",
"slice of the flat text by offsets"
],
"C09": [
"`del_selection`",
"expected false for multi-line selections: refutation; in-line case and \"nothing outside is lost\" proved"
],
"C10": [
"`swap_lines`...",
"permutation; cursor column expected false: refutation"
],
"C11": [
"`select_word_around`",
"maximal run characterisation"
],
"C12": [
"`fix_scroll` and the key paths of `InputField`",
"case analysis; expected false (a row scroll goes the wrong way): refutation plus the true cases"
],
"C13": [
"`display_on` as a function to rows of printed chars",
"induction on the loop over the chars of a row"
],
"C14": [
"event dispatch of `InputField`",
"case analysis"
],
"C15": [
"click handling",
"least index characterisation"
],
"C16": [
"`StrFit` with byte counts",
"induction"
],
"C17": [
"`CropWriter` operations as a small language",
"invariant on histories"
],
"C18": [
"same",
"expected false for chars (strict comparison): refutation; proved for strings"
],
"C19": [
"chunk loop",
"induction on the length"
],
"C20": [
"`Spacing`",
"arithmetic"
],
"C21": [
"`TblFit`",
"invariant of the two reduction loops, sorting restores the order"
],
"C22": [
"same",
"expected false: refutations"
],
"C23": [
"tokens, `hard_wrap_composite`",
"invariant of the accumulation loop"
],
"C24": [
"same",
"sequence of non-blank styled chars preserved; gluing expected: refutation"
],
"C25": [
"same",
"invariant"
],
"C26": [
"same, margins",
"expected false (subtraction underflow): refutation; exact condition"
],
"C27": [
"`Fitter`",
"width accounting of cuts; expected false: refutations; positive theorem when no panic"
],
"C28": [
"same",
"prefix/suffix lemmas"
],
"C29": [
"`fill_width` and composite rendering",
"from C27 and C35"
],
"C30": [
"`Table::fix_columns`",
"invariant on rows"
],
"C31": [
"same",
"content of columns"
],
"C32": [
"same",
"expected false: refutation; proved for enough width"
],
"C33": [
"same",
"case analysis"
],
"C34": [
"`justify_blocks`",
"block decomposition; the width part expected false: refutation"
],
"C35": [
"`write_fmt_composite`, `write_fmt_line`",
"column sums"
],
"C36": [
"styles as records",
"algebra"
],
"C37": [
"blend oracle",
"expected false: refutation"
],
"C38": [
"cached rendering",
"invariant on histories; false for blend: refutation"
],
"C39": [
"`compute_scrollbar`",
"arithmetic; bottom row expected false: refutation with exact bounds"
],
"C40": [
"`TextView`, `MadView` scrolls",
"invariant on histories"
],
"C41": [
"same",
"induction on pages"
],
"C42": [
"same with u16 truncation",
"refutation above 65535, proved below"
],
"C43": [
"`ListView`",
"invariant on histories"
],
"C44": [
"same",
"cyclic search"
],
"C45": [
"same",
"expected false: refutations"
],
"C46": [
"`update_dimensions`",
"arithmetic, invariants"
],
"C47": [
"`write_on`",
"column sums"
],
"C48": [
"`add_row` with insertion sort standing for the stable sort",
"sortedness; selection identity expected false"
],
"C49": [
"`Area`",
"arithmetic"
],
"C50": [
"`Rect::draw` as the list of written cells",
"cell sets"
],
"C51": [
"printers and parsers, matchers of the regexes",
"round trips; refutations"
],
"C52": [
"printers and parsers, matchers of the regexes",
"round trips; refutations"
],
"C53": [
"printers and parsers, matchers of the regexes",
"round trips; refutations"
],
"C54": [
"trees of texts, sequences and maps; every (de)serializing function",
"round trip computed for every skin; refutations"
],
"C55": [
"labelled transition system of the reading thread, the application and the channels; combiner quantified",
"invariant by induction on executions; relational cut of the stream"
],
"C56": [
"same",
"from the cut of C55"
],
"C57": [
"same, times in the labels",
"invariant on executions"
],
"C58": [
"same, quit channel",
"invariant on executions, refutations for early unblocks"
],
"C59": [
"labelled transition system of the ticker, the threads of the beams, the channels, the clock",
"invariant on executions; explicit schedule for the liveness part"
],
"C60": [
"same",
"invariant, then induction on the steps after the stop"
],
"C61": [
"loop on a stream of chars and failures, with fuel",
"exact characterisation by induction, both ways"
],
"C62": [
"same",
"refutation: no fuel is enough; exact condition"
],
"C63": [
"binary32 numbers as multiples of 2^-149, the exact IEEE operations",
"bounds on roundings, monotony of each rounded operation"
],
"C64": [
"setters of the skin",
"case analysis on kinds and flags"
],
"C65": [
"`margins_in`",
"arithmetic"
],
"C66": [
"drawing of text views as commands, rendering of a line quantified",
"induction on rows"
],
"C67": [
"tokens and wrapping",
"invariants of the tokenizer and of the wrapping loop"
],
"C68": [
"table layout",
"induction on rows"
],
"C69": [
"`FmtText::from_text`",
"composition of the layout steps"
],
"C70": [
"drawing of list views",
"induction on rows"
],
"C71": [
"drawing of input fields",
"row by row specification"
],
"C72": [
"all the operations of `InputField`",
"invariant on histories"
],
"C73": [
"`TimedEvent` methods over the executions of C55",
"from C57"
],
"C74": [
"as C59",
"invariant on executions"
],
"C75": [
"`ask!` as a function",
"from C61"
],
"C76": [
"M_Area over M_Text, M_View and M_Render",
"composition of C32, C69, C35 and C66; cells covered by tiled rows"
],
"C77": [
"M_Area over M_Text and M_Render",
"composition of C32, C69 and C35"
],
"C78": [
"regular expressions parsed from the patterns of the source, backtracking semantics",
"soundness and completeness of the semantics for a declarative definition; equality with the matchers of M_Parse"
],
"C79": [
"printers and parsers, matchers of the regexes",
"inductive definition of the accepted texts; both inclusions"
],
"C80": [
"M_Style, M_Render, M_View, M_Area, M_Rect, M_Fit, M_Input, M_List",
"`S_Pen` gives the effect of the commands on the style of the terminal (`PrintStyledContent` of crossterm sets colors and attributes before the text and resets what it set after); the commands of each drawing function are then followed, by induction on lines, cells and rows. The separators of the selected row of a list are written over a `SetBackgroundColor` which is cleared by the next cell, which has a background."
],
"C81": [
"M_Style, M_Fit, M_Wrap, M_TblFit, M_Text, M_Render, M_View, M_Area",
"`S_Layout` says when two skins have the same shape and what the layout of commands is (styles removed); all the functions are followed for both skins at once."
],
"C82": [
"M_Text, M_Wrap, M_TblFit, M_Render, M_Fitter, M_View, M_Area, M_Style",
"`S_Origin` lists the origins of a character; the formatting keeps the characters of the source with their flags and kind of line (from `C24_text_kept`, `C25_kinds`, `C31_replaced`, `C34_justified`, `C26_lines`), the rendering adds the ones of the skin (from `C35_drawn`)."
],
"C83": [
"M_Text, M_Wrap, M_TblFit, M_Render, M_Area",
"`S_Local` says when a table or a block is cut; the decomposition in runs (`fix_all_iff`, `fold_runs_fwd`) is shown compatible with the concatenation and functional, wrapping and writing are by induction on the lines."
],
"C84": [
"M_Wrap, M_Text",
"the loop on the tokens is reduced to a state (ended lines, column) on words; the states for two widths are compared word by word (P_Taller)"
],
"C85": [
"M_Serde, M_Parse (ser_skin, de_skin)",
"P_Settle: what's read is faithful (C54) except for a rich scrollbar read as a simple one; a second reading settles it"
],
"C86": [
"M_Event (step, run)",
"P_Drain: induction on the work left to the thread, with the counts of sent, received and answered events (C55, C58)"
],
"C87": [
"M_View, M_List",
"P_Steps: induction on the calls with the functional specifications of C40 and C45"
],
"C88": [
"M_Wrap (hard_wrap_composite, tokenize), M_Style",
"S_Optimal gives the words of a text and their layouts independently of the tokens; the loop is shown never to be further than any fitting layout after the same words (invariant on line and column), then the greedy layout is built when all words fit"
],
"C89": [
"M_Parse, M_Serde",
"induction on the tokens; each entry of a document is an update of one part of the skin, updates of different parts commute"
],
"C90": [
"M_Content, M_Input",
"S_Editor.v defines a plain editor on two strings; C90_step shows each operation of the content refines it, C90_runs and C90_keys extend that to histories and keys by induction"
],
"C91": [
"M_Wrap, M_Text (hard_wrap_lines)",
"C91_fixed by induction on the lines: the first line of a wrapped composite always fits, so a composite which doesn't isn't given back; the others follow with C23 and C25"
],
"C92": [
"`M_Style.v` (`skin_default`, `skin_no_style`, `line_style`, `compound_style`), `M_Serde.v` (`skin_default_dark`, `skin_default_light`)",
"a table of looks written apart (`S_Skins.v`), case analysis on flags, kinds and levels; `C82` brings all printed chars back to the text or the skin, `C81` gives the layout"
],
"C93": [
"M_Content (all operations)",
"the two-string editor of C90 extended with the selecting operations; the simulation of P_Safe (`op_sim`) between a content and the same one without selection"
],
"C94": [
"M_View, M_Render, M_Area, M_Input, M_Rect, M_List",
"an interpreter of the commands on a terminal (S_Paint); its cells are given by the last spot of S_Input which covers them; fills of C76, tiles of C13, cells of C50 tell which ones are covered; pens of C80 tell the looks; induction on the list of things, permutations"
],
"C95": [
"`S_Read` (what is read in a cell, a row, an area), `M_Area`, `M_Text`, `M_Render` on the terminal of `S_Paint`",
"The rows drawn by C76 tile the columns of the area, so that reading the cells gives back the chars in order; the wrapped lines have, spaces aside, the chars of the source (C83, C29); composition."
],
"C96": [
"`M_Event`, `M_Input`, `M_Content`; `S_Typing` (the events given to the field, the keys of a stream)",
"C55 gives the received events from the read ones; C90 the effect of each key; induction on the received events. Drawing: C12 (no scroll for a text which fits), C95_field."
],
"C97": [
"M_Style, M_Rect, M_Text, M_Render",
"S_Border.v gives the arms of the box-drawing chars; the borders of each line of a table are located in what is drawn (C35), the positions of rules come from C33, the columns from C30, and the cells of rectangles from C50"
],
"C98": [
"M_View (MadView, TextView), M_Area, M_Render, S_Paint (the terminal)",
"`place` is the abstract position of the reader, `fresh_rows` the rows which weren't on the previous screen; run_place ties the model's scroll to it, view_row gives what is read on each row, then an induction on the number of pages"
],
"C99": [
"`S_Cells` (rectangles of the terminal, cells of the source), `M_Text`, `M_TblFit`, `M_Render`, `M_Area` on the terminal of `S_Paint`",
"The lines replacing a row have in each column the visible chars of its cell (`replaces`, C24); a row is drawn as cells between borders whose places only depend on the widths of the columns; reading a part of a row gives the chars drawn there (part_drawn); C83 separates the table from what's around"
],
"C100": [
"`S_ListRead` (what is read in a cell of a list), `M_List` on the terminal of `S_Paint`",
"`lv_write_on` is a move and a line for each row (C70); a line of narrow chars changes only the cells from its start, read back as its chars (inline_run, inline_read) and no other line (lines_kept, lines_read); the pieces of the lines are those of C47; histories come from C43 and C48"
],
"C101": [
"M_Text, M_Wrap, M_TblFit, M_Render, M_Area, terminal of S_Paint",
"A text is cut in its tables, its blocks of code and its other lines, which are formatted apart (C83); lines made for each source line, with the widths shared in a table or in a block; reading of a part of a row of the terminal (C99)"
],
"C102": [
"M_Area, M_Render, M_Text",
"`S_Paper` specifies a terminal of a given size, with its wrap and its scroll. Each printed line has at most the width and no newline (C77, C82), so that the terminal doesn't wrap; it reads as the line completed with blanks would, which is read as in C101"
],
"C103": [
"M_Prompt, M_Ask, M_Area, M_Render",
"`S_Prompt` states the row of an answer as styled chars in cells. The two outputs of an answer are computed as styled chars, which are seen in the cells as they are since their sum has its place on the row; the text of the question is read as in C102 and keeps its rows by a frame argument"
],
"C104": [
"M_View, M_Area, M_Render, M_Text",
"C101_view gives the reading for a scroll and a sharing of the rows which doesn't depend on it; the run of the operations is the clamped sum of what is asked (C98), and repeated presses on up or down give any place, the last ones being those of the end of the text"
],
"C105": [
"M_Input, M_Content, M_Style",
"the cells of a row are computed from C71_display and the spots of the screen, each being the last one written in its place; the positions of the mouse are the ones of C15; the run of the drags keeps the place of the press as the tail of the selection (induction on the way), and the range of the selection is the reading order"
],
"C106": [
"M_Style, M_Text, M_Wrap, M_TblFit, M_Render, M_Area, terminal of S_Paint",
"the flags of the chars are kept by the wrapping (C24) and the tables; each spot of the screen has the pen of its style (C80); the look of a compound is the fold of the styles; then line by line as for C101"
],
"C107": [
"`S_ListLook` (look of cells, marking of a row), `M_List` on the terminal of `S_Paint`",
"the pen is the default one between lines (C80), so each line is inked from it (list_cells); the inks of a row are computed by induction on its columns, the pen left by a separator having no effect on the cell which follows (inked_sel); places are those of C47"
],
"C108": [
"M_Render, M_Text, M_Wrap (all of the printing)",
"the rows printed are the ones drawn with their completions (C102) but for blanks of the paragraph at their ends; looks of the completed rows from the lemma of C106; the same commands from the same pen change the same cells"
],
"C109": [
"M_Render, M_Text, M_Wrap (all of the printing)",
"induction on the sequence: what is known of one printing (C102, C108) gives back its own hypotheses on the terminal after it, and changes no cell of the rows of the others"
],
"C110": [
"M_Content (all operations), M_Input (keys and mouse)",
"the two-string editor of C90 and C93 with a mark; each operation is shown to do with the tail of the selection what the reference does with the mark (`tail_*`), the deletion by C09 and `split_at`; the histories by induction; the keys and the mouse by C14"
],
"C111": [
"M_TblFit (all)",
"the two cutting steps without their checks (`fit_pure`); the second step takes all it can from each column; the gains of the first one, as functions of the excess, are increasing and grow by at most one; sorting keeps the comparison of two lists column by column"
],
"C112": [
"`reading` of S_Reading.v: the view of M_MadView written on the terminal of S_Term after each group of operations",
"induction on the groups from their end: the last drawing is a `C106` look on a terminal with any content; `C104` places the window; the presses of `C104_reach`"
],
"C113": [
"the contents of M_Content and all their operations",
"on the reference of C110: the number of times a char is in a list of lines, each one with a line feed; exchanging two lines is a permutation; what is left by the deletion of a selection is made of parts of the lines"
],
"C114": [
"`editing` of S_Drawn.v: the events of M_Input, then its drawing on the terminal of S_Term, again and again",
"induction on the events: the state stays valid (`C72`), the chars of its text are old ones or typed ones (`C113`) so they keep one column, the number of lines and the scroll stay bounded so the drawing does not panic; each drawing is a `C105` picture and covers the previous one (`C94`)"
],
"C115": [
"`reading` of S_Reading.v with the resizes of M_View; the reference `after` of S_Resized.v",
"the view is the one of the reference after each operation (`op_after`), its place being at most the number of lines; the drawing of C76 and the looks of C106 are first generalised to a scroll which is too far (`view_anywhere`, `look_anywhere`); induction on the groups; presses on up or down from any place"
],
"C116": [
"`working` of S_App.v: all the operations `if_op` of M_Input, and its drawing on the terminal of S_Term",
"`fine` (valid content of chars of one column, room for the lines and the scroll) is kept by each operation: each one is a list of operations of the content (`op_content`), so `C113` bounds what is in the text; then as for C114, with the areas where the field was drawn"
],
"C117": [
"`together` of S_Widgets.v: a list of widgets (`MadView`, `InputField`, `ListView`, `Rect`) whose requests are interleaved, on the terminal of S_Paint",
"each drawing is a picture of its cells only (C94, C118), so by induction on the requests the terminal agrees with the one of a widget alone in all cells the others don't touch; then C115, C116, C100, C107 and C50 for each widget, `seen_from` depending on the cells only"
],
"C118": [
"`lv_write_on` of M_List on the terminal of S_Paint",
"the commands of C70 line by line: each line is a picture of its cells (`draws`), a sequence of pictures is a picture of the union"
],
"C119": [
"the event source of M_Event, the field of M_Input given what is received (S_Typing), on the terminal of S_Paint",
"the received events are a subsequence of the read ones (C55); so what may be typed is counted and C116 applies to any grouping; C96 tells the text"
],
"C120": [
"M_Ask, M_Prompt",
"`S_Dialog` interleaves what is printed with the echo of the lines which are read. The lines which are read come from C61, the rows of the question and of its answers from C103; they're kept by what follows, and an induction on the lines which aren't understood gives the other rows"
],
"C121": [
"M_Input, M_Event",
"`S_Form` states the application and the share of each field from the areas and the presses only. One event on one field is computed in all cases (C14, C72); the invariant on an event is: the focus is the one of the owner, and each field has received its share; the whole by induction on the events. The text after a press comes from C96"
],
"C122": [
"M_Input, M_Event, M_View",
"`S_FormDrawn` states which calls each field gets for an event. The fields of the form are those of these calls (induction on the events); the widgets seen as if alone (C117) show the cells, and what the event source gives is a subsequence of what is read (C119)"
],
"C123": [
"`layers` of S_Layers.v: the widgets as they were each time they were drawn, over `together` of S_Widgets.v",
"each drawing is a picture of its cells which depends neither on what was there nor on the terminal (C94, C118), so by induction on the requests each cell is the one of its topmost layer; then what is seen of the widget as in C117, drawing it again changing nothing"
],
"C124": [
"`view_area`, `app_react`, `app_loop` and `run_app` of M_Scrollable.v, from examples/scrollable/main.rs:25-62, over `MadView` and `Area`",
"by induction on the events: the view is at the place told by `after` (C115), its drawing is a picture of the column (C94), the cells out of the column stay empty, since a resize clears the screen; the keys to reach a line from `goes`"
],
"C125": [
"`View` with its `resize`, `set_focus`, `apply_key_combination`, `apply_mouse_event` and `apply_timed_event` of M_Inputs.v, from examples/inputs/view.rs, over the model of `InputField` and `MadView`",
"an invariant (`sound` of S_Inputs.v), kept by each event, by the lemmas of C14 and C72 on fields; induction on the events"
]
}