{"id": "C01", "title": "Editing never corrupts the input field content", "statement": "After any sequence of editing, moving and selecting calls on an input field's content, there is at least one line, the cursor and the selection tail designate an existing line and an index at most that line's length, no line holds a line feed, carriage return or backspace character, and no call of the sequence panics.", "quantifier": "every finite sequence of content operations with arbitrary arguments, from an empty content", "why_tests_cant": "The set of histories is infinite and an invalid cursor only shows up as a panic several operations later.", "anchors": ["src/views/input_field_content.rs: InputFieldContent (all methods), Chars::next", "src/views/pos.rs: Pos, Range"]}
{"id": "C02", "title": "Text set in an input field is the text read back", "statement": "A content built from a string prints as that string with exactly its carriage returns and backspaces removed; is_str answers true exactly when the printed content equals the argument; set_str leaves everything (cursor included) untouched when the text is the same and otherwise yields the text with the cursor at its end.", "quantifier": "every string and every reachable content", "why_tests_cant": "Needs all strings, including empty lines, trailing newlines and filtered characters.", "anchors": ["src/views/input_field_content.rs: InputFieldContent::from, insert_str, is_str, set_str, clear, Display", "src/views/input_field.rs: InputField::set_str, get_content"]}
{"id": "C03", "title": "Typing inserts at the cursor", "statement": "Typing a character, a new line or a whole string replaces the text `before|after` (| is the cursor) by `before typed|after`: nothing else in the text changes and the cursor is just after what was typed.", "quantifier": "every reachable content, cursor position and typed string", "why_tests_cant": "Splice correctness over all line structures and cursor positions is an infinite family.", "anchors": ["src/views/input_field_content.rs: insert_char, insert_new_line, insert_str", "src/views/input_field.rs: put_char, InputField::insert_new_line"]}
{"id": "C04", "title": "Backspace and Delete remove exactly one neighbour character", "statement": "Delete-left removes exactly the character (or line break) just before the cursor and moves the cursor there, delete-below removes exactly the character (or line break) at the cursor without moving it; each returns false and changes nothing when there is no such character. Typing a character then deleting left is the identity on text and cursor.", "quantifier": "every reachable content and cursor position", "why_tests_cant": "Boundary positions (empty lines, line ends, text ends) combine with every text.", "anchors": ["src/views/input_field_content.rs: del_char_left, del_char_below"]}
{"id": "C05", "title": "Left and right cursor moves walk the text one character at a time", "statement": "Moving right (left) moves the cursor forward (backward) by exactly one character of the text, crossing line breaks, and returns false exactly at the end (start), in agreement with can_move_right (can_move_left); left undoes right and right undoes left; the text never changes. Going to start/end and line start/end lands exactly there and returns whether the cursor moved.", "quantifier": "every reachable content and cursor position", "why_tests_cant": "Inverse laws over all texts and positions.", "anchors": ["src/views/input_field_content.rs: move_left, move_right, can_move_left, can_move_right, move_to_start, move_to_end, move_to_line_start, move_to_line_end"]}
{"id": "C06", "title": "Vertical cursor moves keep the column", "statement": "Moving n lines up or down changes the line index by n clamped to the text and puts the cursor at the first character of the target line starting at or after the original column (or at the line end if there is none); the text is untouched and false is returned only on the first (last) line, where nothing changes.", "quantifier": "every reachable content, every n, every character width assignment", "why_tests_cant": "Depends on display widths of all the characters before the cursor in two lines.", "anchors": ["src/views/input_field_content.rs: move_lines_up, move_lines_down, Line::char_idx_to_col, Line::col_to_char_idx"]}
{"id": "C07", "title": "Word moves and word deletions agree", "statement": "Deleting a word left removes exactly the characters a word-left move jumps over; the word-left move stops at the closest position having no alphanumeric character just before it; the word-right move stops at the closest position followed by a non alphanumeric character or by less than two characters; word deletions on the right remove an alphanumeric run and the character ending it. None goes out of the current line nor touches another line.", "quantifier": "every reachable content, cursor position and alphanumeric classification", "why_tests_cant": "Loops over arbitrary runs of characters.", "anchors": ["src/views/input_field_content.rs: move_word_left, move_word_right, del_word_left, del_word_right"]}
{"id": "C08", "title": "The selected string is the inclusive slice of the text", "statement": "The selection range is always ordered whichever of cursor and tail comes first, a position is highlighted exactly when it lies between the two ends in reading order, and the selected string is exactly the slice of the text from the first end to the second one included.", "quantifier": "every reachable content with any cursor and selection tail", "why_tests_cant": "Multi-line slices over all texts and all position pairs.", "anchors": ["src/views/input_field_content.rs: selection, selection_chars, selection_string, Chars::next", "src/views/pos.rs: Range::contains"]}
{"id": "C09", "title": "Deleting or cutting the selection removes exactly the selected text", "statement": "del_selection removes from the text exactly what selection_string returns, and puts the cursor where the selection started; in particular cut then paste restores the text, and no character out of the selection is lost.", "quantifier": "every reachable content with a selection", "why_tests_cant": "Multi-line selections with all the combinations of ends at line starts or ends.", "anchors": ["src/views/input_field_content.rs: del_selection, selection_string", "src/views/input_field.rs: InputField::cut_selection"]}
{"id": "C10", "title": "Moving a line permutes lines and carries the cursor", "statement": "Moving the current line up or down exchanges it with its neighbour, leaves all other lines unchanged and keeps the cursor on the same character of the moved line; moving up then down is the identity; false is returned and nothing changes exactly when there is no neighbour.", "quantifier": "every reachable content and cursor", "why_tests_cant": "All pairs of line lengths.", "anchors": ["src/views/input_field_content.rs: swap_lines, move_current_line_up, move_current_line_down, fix_selection"]}
{"id": "C11", "title": "Selecting a word selects the maximal word around the cursor", "statement": "select_word_around returns false and changes nothing exactly when the cursor isn't on a word character; otherwise the selection becomes the maximal run of word characters of the line containing the cursor.", "quantifier": "every reachable content, cursor and word classification", "why_tests_cant": "Maximality over arbitrary lines.", "anchors": ["src/views/input_field_content.rs: select_word_around, is_word_char"]}
{"id": "C12", "title": "The cursor of a focused input field stays visible", "statement": "After any edit or cursor move done through a focused input field, the cursor's line and column are inside the displayed window.", "quantifier": "every field area, every content, every cursor position and previous scroll", "why_tests_cant": "Scroll, area size, line widths and cursor interact over an unbounded state space.", "anchors": ["src/views/input_field.rs: fix_scroll, apply_keycode_event, wrap_content_fun"]}
{"id": "C13", "title": "An input field draws exactly its area", "statement": "Drawing an input field writes each row of its area exactly once, each row taking exactly the area's width in columns (scrollbar included), whatever the content, wide characters, scroll, selection and password mode; the returned cursor position, if any, is inside the area and on the drawn cursor.", "quantifier": "every area, content, scroll, selection, focus and character width assignment", "why_tests_cant": "Column accounting over arbitrary mixes of narrow, wide and zero-width characters.", "anchors": ["src/views/input_field.rs: display_on"]}
{"id": "C14", "title": "Input field events only act when they should", "statement": "When an event handler returns false on a key, the text is unchanged; key events are ignored when the field isn't focused; mouse events out of the area change nothing (except ending a mouse selection); keys declared as new-line keys insert a line break, single-line fields never get a second line from keys.", "quantifier": "every field state and every event", "why_tests_cant": "All events times all states.", "anchors": ["src/views/input_field.rs: apply_event, apply_timed_event, apply_key_combination, apply_key_event, apply_keycode_event, apply_mouse_event"]}
{"id": "C15", "title": "A click puts the cursor on the clicked character", "statement": "A click in the area of a field puts the cursor on the line displayed at this row (or the last one) and on the character displayed at this column or the line end, and never out of the text.", "quantifier": "every field state and every click position", "why_tests_cant": "Inverse of the column layout for arbitrary widths.", "anchors": ["src/views/input_field.rs: apply_click_event, apply_mouse_event", "src/views/input_field_content.rs: Line::col_to_char_idx"]}
{"id": "C16", "title": "Fitting a string takes the longest fitting prefix", "statement": "Counting what fits in n columns returns a prefix cut on a character boundary, whose width is at most n and such that adding the next character would exceed n (tabs counting as their replacement); the made string has exactly the counted columns.", "quantifier": "every string, every n and every character width assignment", "why_tests_cant": "All strings with multi-byte and wide characters.", "anchors": ["src/fit/str_fit.rs: StrFit::count_fitting, StrFit::make_string, StrFit::make_cow"]}
{"id": "C17", "title": "A crop writer never writes more columns than allowed", "statement": "Whatever the sequence of queue calls on a crop writer, the columns written never exceed the limit given at creation and the number it reports as remaining is exactly the limit minus what was written.", "quantifier": "every sequence of operations with arbitrary strings, chars and fill sizes", "why_tests_cant": "Unbounded operation histories.", "anchors": ["src/fit/crop_writer.rs: CropWriter"]}
{"id": "C18", "title": "A crop writer writes everything that fits", "statement": "A string or char whose width is at most the remaining columns is written completely.", "quantifier": "every string, char and remaining width", "why_tests_cant": "Exact-fit boundaries for all widths.", "anchors": ["src/fit/crop_writer.rs: CropWriter::queue_char, queue_unstyled_char, queue_str, queue_g_string"]}
{"id": "C19", "title": "Filling writes exactly the requested number of characters", "statement": "Queuing n times a filling writes exactly n copies of its character, for any n and any UTF-8 size of the character.", "quantifier": "every n and character", "why_tests_cant": "Chunked output: sizes above the chunk length and byte-slicing for multi-byte characters.", "anchors": ["src/fit/filling.rs: Filling::queue_unstyled, queue_styled"]}
{"id": "C20", "title": "Spacing pads exactly and fairly", "statement": "The left and right paddings computed for an inner width in an outer width add up to the difference (0 when it doesn't fit), put all the space on the side opposite to the alignment, and differ by at most one when centered; writing a counted string in a spacing writes exactly the spacing's width in characters.", "quantifier": "every pair of widths, alignment and string", "why_tests_cant": "Arithmetic over all widths.", "anchors": ["src/spacing.rs: Spacing::completions, optional_completions, completions_for, write_counted_str"]}
{"id": "C21", "title": "Balanced table widths always fit", "statement": "When the available width is at least 4 per column plus one, the column widths computed for a table are one per column in order, each at least 3, and with borders never exceed the available width; columns keep their natural width when they all fit and the available width is fully used when they don't; no input makes the computation panic. A smaller available width is reported as an error.", "quantifier": "every number of columns, every sequence of cell widths and every available width", "why_tests_cant": "Rounding divisions and sorting over arbitrary vectors.", "anchors": ["src/fit/tbl_fit.rs: TblFit::new, see_cell, fit"]}
{"id": "C22", "title": "Table width reduction is fair and reported", "statement": "When columns must be reduced, the reduction is spread proportionally (a column isn't cut to the minimum while an equally wide one keeps its full width), and `reduced` tells whether a column got less than its natural width.", "quantifier": "every vector of column widths and every available width", "why_tests_cant": "Fairness quantifies over all vectors.", "anchors": ["src/fit/tbl_fit.rs: TblFit::fit, TblFitResult"]}
{"id": "C23", "title": "Wrapped lines fit the width", "statement": "Wrapping a composite to a width gives only lines whose displayed width (bullet, quote mark and indentation included) is at most that width.", "quantifier": "every composite, every width of at least 3, both list indentation modes, every character width assignment", "why_tests_cant": "Infinite family of texts; wide characters at arbitrary positions.", "anchors": ["src/fit/wrap.rs: hard_wrap_composite, hard_wrap_lines, composite_kind_widths", "src/tokens.rs: tokenize"]}
{"id": "C24", "title": "Wrapping loses no text and no style", "statement": "The non-blank characters of the wrapped lines, with their styles and in order, are exactly those of the source; only blanks where a line is broken may disappear, so that two words separated by blanks are never glued together.", "quantifier": "every composite and width", "why_tests_cant": "Sequence preservation over all texts.", "anchors": ["src/fit/wrap.rs: hard_wrap_composite", "src/tokens.rs: tokenize, Token::to_compound"]}
{"id": "C25", "title": "Wrapping keeps line kinds, indentation and cached lengths right", "statement": "The first wrapped line has the kind of the source, all the next ones the corresponding follow-up kind with its indentation; no produced line is empty; the cached visible length of each produced line is its real width.", "quantifier": "every composite and width", "why_tests_cant": "Holds for each of arbitrarily many produced lines.", "anchors": ["src/fit/wrap.rs: hard_wrap_composite, follow_up_composite", "src/composite.rs: FmtComposite::add_compound", "src/skin.rs: visible_composite_length"]}
{"id": "C26", "title": "Wrapping fails only on widths below 3 and never panics", "statement": "hard_wrap_lines returns an error if and only if the width is less than 3, and formatting a text at any width never panics.", "quantifier": "every text, width and skin margins", "why_tests_cant": "Arithmetic underflows need particular combinations of depth, margins and widths.", "anchors": ["src/fit/wrap.rs: hard_wrap_composite, hard_wrap_lines", "src/line_style.rs: LineStyle::margins_in", "src/text.rs: FmtText::from_text"]}
{"id": "C27", "title": "Fitting a composite makes it fit", "statement": "After Fitter::fit(width) the composite's displayed width is at most the width, the call doesn't panic, and the cached visible length is the real one.", "quantifier": "every composite, alignment, internal ellision flags and width", "why_tests_cant": "Ellision loops over arbitrary tokens and widths.", "anchors": ["src/fit/composite_fit.rs: Fitter::fit, Zone::cut, Zone::biggest_token, Zone::biggest_compound"]}
{"id": "C28", "title": "Fitting only removes what is needed, on the right side", "statement": "A composite which already fits is unchanged; otherwise what is kept is made of a prefix and/or a suffix of the source according to the alignment, with an ellipsis at each cut; and truncation doesn't remove a character more than needed.", "quantifier": "every composite, alignment and width", "why_tests_cant": "Prefix/suffix relations over arbitrary compounds.", "anchors": ["src/fit/composite_fit.rs: Fitter::fit, Fitter::for_align"]}
{"id": "C29", "title": "fill_width gives exactly the width", "statement": "A composite filled to a width prints on exactly this number of columns.", "quantifier": "every composite, alignment and width", "why_tests_cant": "Combination of truncation, padding and wide characters.", "anchors": ["src/composite.rs: FmtComposite::fill_width, fit_width, extend_width", "src/skin.rs: write_fmt_composite"]}
{"id": "C30", "title": "Tables are rectangular and fit", "statement": "After tables are laid out for a width, all the rows and rules of a table have the same number of columns and print on the same width, which isn't greater than the available width.", "quantifier": "every table (ragged rows, any alignments), every width", "why_tests_cant": "Arbitrary ragged tables and widths.", "anchors": ["src/tbl.rs: Table::fix_columns, fix_all_tables, FmtTableRow, FmtTableRule", "src/skin.rs: write_fmt_line"]}
{"id": "C31", "title": "Table layout keeps cell texts in their columns", "statement": "When the width allows all the columns, the non-blank text of each cell is found in the same column over consecutive output rows, before the rows of the next source row; lines out of tables are unchanged and in order.", "quantifier": "every text with any number of tables and every sufficient width", "why_tests_cant": "Row insertion shifts indices of everything after it.", "anchors": ["src/tbl.rs: Table::fix_columns, find_tables, fix_all_tables"]}
{"id": "C32", "title": "Laying out tables never panics", "statement": "Formatting a text with tables never panics whatever the rows and the width.", "quantifier": "every list of lines and width", "why_tests_cant": "Needs ragged rows combined with narrow widths.", "anchors": ["src/tbl.rs: Table::fix_columns"]}
{"id": "C33", "title": "Table rules get the right joint position", "statement": "In a laid out table a rule is marked top exactly when it opens the table, bottom exactly when it closes it (and isn't also the first line), and its cells have the widths of the columns.", "quantifier": "every table", "why_tests_cant": "All positions of rules in all tables.", "anchors": ["src/tbl.rs: Table::fix_columns, RelativePosition"]}
{"id": "C34", "title": "Code blocks are justified to a common width", "statement": "Consecutive code lines form a block whose lines all get, as width, the largest line length of the block; lines out of code blocks are unchanged; and a text wrapped at a width has no code line printed wider than it.", "quantifier": "every list of lines and width", "why_tests_cant": "Arbitrary many blocks; interaction with wrapping.", "anchors": ["src/code.rs: justify_blocks, find_blocks, Block::justify", "src/text.rs: FmtText::from_text"]}
{"id": "C35", "title": "Rendered lines take exactly the expected columns", "statement": "A formatted line written with right completion on a width takes exactly that many columns when its content fits: composites with margins and alignment, table rows, table rules and horizontal rules alike; without completion it never takes more than the content needs and no more than the width.", "quantifier": "every formatted line, skin alignment and margins, and width", "why_tests_cant": "Column sums over arbitrary content.", "anchors": ["src/skin.rs: write_fmt_composite, write_fmt_line, visible_line_length", "src/displayable_line.rs: DisplayableLine"]}
{"id": "C36", "title": "Style composition follows the documented precedence", "statement": "The style of a compound is the line style overwritten, in order, by italic, strikeout, bold and code styles for the flags it has (the ellipsis having its own style), where overwriting keeps the last defined colors and all the attributes; overwriting is associative with the empty style as unit.", "quantifier": "every style and every combination of flags", "why_tests_cant": "Algebraic laws over all styles.", "anchors": ["src/compound_style.rs: CompoundStyle::overwrite_with", "src/skin.rs: MadSkin::compound_style"]}
{"id": "C37", "title": "Blending a style blends its foreground and its background", "statement": "blend_with replaces the foreground and the background, when present, by their blends with the given color, once each.", "quantifier": "every style, color and weight", "why_tests_cant": "For all colors, and the bug only shows on styles having a background.", "anchors": ["src/compound_style.rs: CompoundStyle::blend_with", "src/line_style.rs: LineStyle::blend_with", "src/skin.rs: MadSkin::blend_with"]}
{"id": "C38", "title": "A styled char is always drawn with its current style", "statement": "After any sequence of style changes of a styled char, what is drawn is its char with its current compound style.", "quantifier": "every sequence of setters and blends", "why_tests_cant": "Cache coherence over histories.", "anchors": ["src/styled_char.rs: StyledChar"]}
{"id": "C39", "title": "The scrollbar thumb is inside its track and follows the scroll", "statement": "compute_scrollbar returns nothing exactly when the content fits; otherwise the thumb's first and last rows are ordered and inside the area, the thumb touches the top exactly when not scrolled, moves monotonically with the scroll, and touches the bottom only when scrolled to the end.", "quantifier": "every scroll, content height, area height and top", "why_tests_cant": "Integer divisions over all sizes.", "anchors": ["src/area.rs: compute_scrollbar, Area::scrollbar"]}
{"id": "C40", "title": "Views never scroll past their content", "statement": "From any sequence of scrolling calls and keys, the scroll of a text view stays between 0 and the content height minus the view height, no call panics, and the returned boolean tells whether the view moved.", "quantifier": "every content height, area and sequence of calls with any arguments", "why_tests_cant": "Unbounded histories and i32/usize conversions.", "anchors": ["src/views/text_view.rs: TextView", "src/views/mad_view.rs: MadView"]}
{"id": "C41", "title": "Paging goes through the whole content", "statement": "Repeated page downs show every line and reach the end, page up undoes page down away from the ends.", "quantifier": "every content height and view height", "why_tests_cant": "Needs induction on the number of pages.", "anchors": ["src/views/text_view.rs: try_scroll_lines, try_scroll_pages", "src/views/mad_view.rs: try_scroll_pages"]}
{"id": "C42", "title": "A scrollbar is displayed exactly when there's something to scroll", "statement": "The text view and input field display a scrollbar exactly when the content is taller than the area.", "quantifier": "every content height", "why_tests_cant": "Truncation to u16 only shows on heights above 65535.", "anchors": ["src/views/text_view.rs: TextView::scrollbar", "src/views/input_field.rs: display_on", "src/area.rs: Area::scrollbar"]}
{"id": "C43", "title": "List view counters and selection are always consistent", "statement": "After any sequence of row additions, filter changes, clears and selections, the displayed row count is the number of rows accepted by the filter, and the selection, if any, is the index of an existing row, so that reading it never panics.", "quantifier": "every sequence of list view operations, with arbitrary filter and order functions", "why_tests_cant": "Unbounded histories with user supplied closures.", "anchors": ["src/views/list_view.rs: ListView::add_row, clear_rows, set_filter, remove_filter, update_filter, get_selection"]}
{"id": "C44", "title": "Selecting next or previous walks the displayed rows cyclically", "statement": "try_select_next selects the closest displayed row after (before) the selection, wrapping around the ends, and leaves the selection unchanged when no row is displayed; the selected row is displayed.", "quantifier": "every list, filter, selection and direction", "why_tests_cant": "Modular search over arbitrary display flags.", "anchors": ["src/views/list_view.rs: ListView::try_select_next, select_first_line, select_last_line"]}
{"id": "C45", "title": "The selected row of a list view is kept visible without panic", "statement": "Selecting a row makes it visible, scrolling never panics and never leaves the rows.", "quantifier": "every list, area height, scroll and selection", "why_tests_cant": "Underflows depend on exact relations of row count, height and selection.", "anchors": ["src/views/list_view.rs: make_selection_visible, try_scroll_lines, scroll_to_bottom, do_scroll_show_bottom"]}
{"id": "C46", "title": "List view columns respect their bounds and the area", "statement": "The width given to each column lies between its minimum and its maximum, the columns with their separators don't exceed the available width unless all columns are at their minimum, and no width is left unused while a column could grow.", "quantifier": "every set of column bounds and every available width", "why_tests_cant": "Proportional distribution over arbitrary bounds.", "anchors": ["src/views/list_view.rs: update_dimensions"]}
{"id": "C47", "title": "List view lines are aligned", "statement": "The title line, the separator line and all the rows of a list view have the same width and their column separators are at the same columns, whatever the merged titles and cell contents.", "quantifier": "every set of columns, titles and cells", "why_tests_cant": "Title merging over arbitrary equal titles.", "anchors": ["src/views/list_view.rs: ListView::new, write_on"]}
{"id": "C48", "title": "Sorting a list view keeps order and selection", "statement": "With an order set, the rows are sorted after each addition, equal rows keeping their insertion order, and the selected row remains the same row.", "quantifier": "every sequence of additions and every comparison function", "why_tests_cant": "Stable sorting and identity of rows over histories.", "anchors": ["src/views/list_view.rs: add_row, sort"]}
{"id": "C49", "title": "Padding an area stays inside it", "statement": "Padding an area or restricting it to a maximum width gives an area inside the original one, of at most this maximum width, centered up to one column; a position is contained exactly when it is a cell of the area.", "quantifier": "every area, padding and position", "why_tests_cant": "Saturating arithmetic over all u16 values.", "anchors": ["src/area.rs: Area::pad, pad_for_max_width, contains, right, bottom"]}
{"id": "C50", "title": "Drawing a rectangle touches exactly its cells", "statement": "Drawing a rectangle of at least 2x2 writes each border cell of its area with the right border character, the inside cells only when filled, and no cell out of the area.", "quantifier": "every area and border style", "why_tests_cant": "All sizes, including degenerate ones.", "anchors": ["src/rect.rs: Rect::draw"]}
{"id": "C51", "title": "Printed colors are parsed back", "statement": "Parsing the text printed for a color gives back an equal color.", "quantifier": "every color", "why_tests_cant": "2^24 RGB values plus overlapping color names.", "anchors": ["src/parse/parse_color.rs: parse_color, write_color"]}
{"id": "C52", "title": "Printed compound styles are parsed back", "statement": "Parsing the text printed for a compound style gives back the same style.", "quantifier": "every style (colors, attributes)", "why_tests_cant": "Combinations of colors and attributes.", "anchors": ["src/parse/parse_compound_style.rs", "src/parse/mod.rs: parse_style_tokens, write_style_tokens", "src/parse/parse_attribute.rs"]}
{"id": "C53", "title": "Printed line styles and styled chars are parsed back", "statement": "Parsing the text printed for a line style (alignment and margins included) or for a styled char gives back the same value.", "quantifier": "every line style and styled char", "why_tests_cant": "All margins and all chars.", "anchors": ["src/parse/parse_line_style.rs", "src/parse/parse_styled_char.rs", "src/serde/serde_line_style.rs", "src/serde/serde_styled_char.rs"]}
{"id": "C54", "title": "A serialized skin deserializes to the same skin", "statement": "Deserializing a serialized skin gives a skin rendering texts the same way.", "quantifier": "every skin", "why_tests_cant": "A skin has dozens of independent style fields.", "anchors": ["src/serde/serde_skin.rs", "src/serde/serde_scrollbar_style.rs", "src/table_border_chars.rs"]}
{"id": "C55", "title": "The event source loses, duplicates and reorders nothing", "statement": "Every terminal event which isn't filtered out by the options is delivered exactly once, in order, either as an event or inside a delivered escape sequence; a sequence interrupted by something else is delivered as its individual keys.", "quantifier": "every stream of terminal events and every set of options", "why_tests_cant": "Infinite streams; buffering of partial escape sequences.", "anchors": ["src/events/event_source.rs: EventSource::with_options", "src/events/escape_sequence.rs: EscapeSequence"]}
{"id": "C56", "title": "Escape sequences are recognised exactly", "statement": "A delivered escape sequence starts with alt-_ , ends with alt-\\, holds in between only keys without alt or control, and every such run of keys of the stream is delivered as one sequence.", "quantifier": "every stream of events", "why_tests_cant": "Language recognition over all streams.", "anchors": ["src/events/escape_sequence.rs: EscapeSequence::is_start, is_end", "src/events/event_source.rs"]}
{"id": "C57", "title": "Double clicks are reported only for close clicks at the same place", "statement": "An event is flagged double click exactly when it's a left button press or release at the position of the previous left release which is less than the maximum delay old.", "quantifier": "every stream of timed events", "why_tests_cant": "State carried over unbounded histories.", "anchors": ["src/events/timed_event.rs", "src/events/event_source.rs"]}
{"id": "C58", "title": "The event source waits for the application", "statement": "After delivering an event the source delivers no other one before unblock(false) is called, and none after unblock(true); the event count is the number of delivered events.", "quantifier": "every interleaving of the reading thread and of the application", "why_tests_cant": "All schedules of two threads.", "anchors": ["src/events/event_source.rs: EventSource::unblock, with_options"]}
{"id": "C59", "title": "A tick beam sends its ticks and no more", "statement": "A beam with a mission count n sends at most n ticks, exactly n when it isn't stopped and its receiver is alive; beams have distinct ids; ticks of one beam never depend on the others.", "quantifier": "every interleaving of beams, stops and starts", "why_tests_cant": "All schedules of arbitrarily many threads.", "anchors": ["src/events/tick_beam.rs: Ticker, TickBeam"]}
{"id": "C60", "title": "Stopping a beam stops it, and only it", "statement": "After stop_beam(id) returned, beam id sends at most one more tick, the other beams are unaffected, and neither stop_beam nor stop_all_beams ever blocks.", "quantifier": "every interleaving", "why_tests_cant": "All schedules.", "anchors": ["src/events/tick_beam.rs: Ticker::stop_beam, stop_all_beams, TickBeamHandle::stop"]}
{"id": "C61", "title": "A question returns one of its answers", "statement": "Question::ask returns the default answer only on an empty input, otherwise the key of one of its answers which was typed; it re-asks until then.", "quantifier": "every question and every stream of input lines", "why_tests_cant": "All input streams.", "anchors": ["src/ask.rs: Question::ask", "src/macros.rs"]}
{"id": "C62", "title": "Asking terminates when the input ends", "statement": "Question::ask returns when the standard input reaches its end.", "quantifier": "every question and finite input", "why_tests_cant": "End of file is a liveness matter.", "anchors": ["src/ask.rs: Question::ask"]}
{"id": "C63", "title": "A progress bar takes at most its width", "statement": "The string printed for a progress bar has at most the requested number of characters, exactly this number when complete, none when at zero, and is monotone in the progress.", "quantifier": "every progress between 0 and 1 and every width", "why_tests_cant": "Continuous parameter, rounding.", "anchors": ["src/views/progress.rs: ProgressBar"]}
{"id": "C64", "title": "Skin-wide color setters recolor everything but code", "statement": "After set_fg (resp. set_bg) on a skin, every compound without code flag in a line other than code is drawn with this foreground (resp. background), its other color and its attributes being unchanged, and the special chars are drawn with it; code styles are kept; limit_to_ascii leaves only ASCII chars.", "quantifier": "every skin, color, composite kind and compound", "why_tests_cant": "The space of skins, kinds and flag combinations is infinite; tests only check a few rendered lines.", "anchors": ["src/skin.rs: MadSkin::set_fg, set_bg, set_global_bg, limit_to_ascii, line_style, no_style", "src/styled_char.rs: StyledChar::set_fg, set_bg, set_char"]}
{"id": "C65", "title": "Margins never eat the content", "statement": "The margins of a line style in an available width are either both zero or the configured ones, and in the latter case they leave at least 3 columns; they are the configured ones whenever these leave 3 columns.", "quantifier": "every line style and every optional width", "why_tests_cant": "Margins and widths are unbounded integers.", "anchors": ["src/line_style.rs: LineStyle::margins_in"]}
{"id": "C66", "title": "A text view draws exactly its area", "statement": "Drawing a text view writes each row of its area once, from top to bottom: the line at scroll + row (or spaces past the end) on the whole width, then the scrollbar cell in the last column, which is the thumb exactly between its first and last rows.", "quantifier": "every area, text, scroll and skin", "why_tests_cant": "Unbounded areas and texts.", "anchors": ["src/views/text_view.rs: TextView::write_on", "src/views/mad_view.rs: MadView::write_on"]}
{"id": "C67", "title": "Wrapping cuts between words and fills lines greedily", "statement": "Texts are cut in maximal words and blanks, a word being divided only when it's wider than what a line can hold; a line is ended only when the first piece of the next line doesn't fit in it; and when two parts (or two parts separated by blanks) of different styles fit each on one line, the cut is between them.", "quantifier": "every composite, width and character width assignment", "why_tests_cant": "Maximality of arbitrary many pieces over all texts.", "anchors": ["src/tokens.rs: tokenize", "src/fit/wrap.rs: hard_wrap_composite"]}
{"id": "C68", "title": "Table cells follow the alignment of the last rule above them", "statement": "In a laid out table, the cells of each row, in each column, are aligned as told by the last rule before the row, a missing alignment being unspecified; before the first rule they are centered.", "quantifier": "every list of lines with any number of tables, every width", "why_tests_cant": "Rules may be anywhere, with any number of columns, and rows are inserted between them.", "anchors": ["src/tbl.rs: Table::fix_columns, FmtTableRule::set_nbcols"]}
{"id": "C69", "title": "Formatting a text keeps its lines and their text", "statement": "A formatted text has the lines of its source in the same order: the text out of tables is kept with its style but for some whitespaces, lines out of tables which aren't items or quotes fit in the width with their margins, and the content width is the biggest length of a line.", "quantifier": "every text, skin and width", "why_tests_cant": "Composition of three passes on arbitrary texts.", "anchors": ["src/text.rs: FmtText::from_text, content_width, set_rendering_width", "src/line.rs: FmtLine::from, visible_length"]}
{"id": "C70", "title": "A list view is drawn in its area", "statement": "Writing a list view puts the title and the separator on the first two lines of its area, then the displayed rows from the scroll, one per line and none skipped, the selected one being marked, clears the lines without row, and draws the scrollbar in the area with its thumb at the computed place.", "quantifier": "every list view, area, filter, scroll and selection", "why_tests_cant": "The combinations of areas, filters, scrolls and merged titles are unbounded; the drawing is never asserted in tests", "anchors": ["src/views/list_view.rs:245-339"]}
{"id": "C71", "title": "An input field shows its text from its scroll", "statement": "Each row of the area of an input field shows the line of this row counted from the vertical scroll, from the first char at the horizontal scroll, an ellipsis replacing what's cut on the left or the right, the cursor or selection being drawn in the cursor style when the field is focused; rows after the last line are blank; the returned position is the last cell in the cursor style and there's none when the field isn't focused; in password mode, the output depends on the lengths of the lines only.", "quantifier": "every area, content, scroll, selection, focus, style and character width assignment", "why_tests_cant": "Column accounting and the non-interference of a password hold over all contents, not on a sample of them.", "anchors": ["src/views/input_field.rs: display_on"]}
{"id": "C72", "title": "Input field histories are safe", "statement": "Whatever sequence of operations, keys, mouse events and setters is applied to an input field whose areas have a width and are on the screen, nothing panics, the content stays valid and the cursor in the text; each operation on the text is the one of the content, followed with a fix of the scroll exactly when it did something; the setters change what they say and nothing else, and only them change the settings.", "quantifier": "every field, every finite history of operations and events", "why_tests_cant": "Histories are unbounded and mix edits, selections, scrolls, areas and focus changes.", "anchors": ["src/views/input_field.rs: wrap_content_fun, set_area, change_area, set_focus, set_normal_style, cut_selection, replace_selection, scroll_up, scroll_down, page_up, page_down"]}
{"id": "C73", "title": "Clicks and keys of the received events", "statement": "Among the events received from a source, as_click gives a position exactly for the unmodified left releases which aren't the second one of a double click, and is_key tells whether the event completes the given combination or is its only key.", "quantifier": "every execution of a source, every event and key", "why_tests_cant": "The flag depends on the past events and on their times.", "anchors": ["src/events/timed_event.rs: as_click, is_key"]}
{"id": "C74", "title": "The ticks of a beam are spaced by its period", "statement": "The first tick of a beam is sent at least one period after its start, and two successive ticks of a beam are at least one period apart, whatever the other beams, the stops and the scheduling.", "quantifier": "every interleaving of beams, stops, starts and time", "why_tests_cant": "All schedules and all durations of arbitrarily many threads.", "anchors": ["src/events/tick_beam.rs: Ticker::start_beam"]}
{"id": "C75", "title": "The ask! macro executes the block of the answer", "statement": "The ask! macro executes the block of the first answer whose key is the one the question returns; it panics exactly for a default which isn't among the keys or when the reading fails, and never reaches its unreachable! arm.", "quantifier": "every list of answers, default and input", "why_tests_cant": "All input streams and lists of answers.", "anchors": ["src/ask.rs: ask!, Question::has_exotic_default"]}
{"id": "C76", "title": "A text drawn in an area covers exactly its cells", "statement": "Writing a markdown text in an area, or drawing a view of it, writes each cell of the area exactly once and no cell out of it, whatever the text: the rows are the lines of the formatted text from the scroll (blanks after the last one), and the last column is the scrollbar when a view has more lines than rows.", "quantifier": "every text, skin, area, scroll and character width assignment", "why_tests_cant": "Composition of the formatting, the wrapping, the table layout and the drawing on arbitrary texts and areas.", "anchors": ["src/skin.rs: MadSkin::area_text, write_in_area_on", "src/views/mad_view.rs: MadView::write_on", "src/views/text_view.rs: TextView::write_on"]}
{"id": "C77", "title": "A printed text is never larger than the terminal", "statement": "Printing a markdown text writes its formatted lines in order, each one followed by a newline and none taking more columns than the terminal has, so that the terminal never wraps; the width is 50 when the terminal doesn't tell it.", "quantifier": "every text, skin, terminal size and character width assignment", "why_tests_cant": "Composition of the formatting, the wrapping, the table layout and the rendering on arbitrary texts.", "anchors": ["src/skin.rs: MadSkin::term_text, print_text, write_text_on, print_expander", "src/area.rs: terminal_size, Area::full_screen", "src/text.rs: FmtText::fmt"]}
{"id": "C78", "title": "Texts of styles are read with the regular expressions of the source", "statement": "Colors, attributes, alignments, style tokens and lists of style tokens are read from a text as the regular expressions written in the source tell: the leftmost match, preferring longer repetitions and earlier alternatives, with its captures; what is found is a match starting at the first possible place, and when nothing is found there is no match.", "quantifier": "every text and every assignment of the Unicode classes agreeing with ASCII", "why_tests_cant": "Backtracking, case folding and captures interact on arbitrary texts, with an unbounded number of ways to split them.", "anchors": ["src/parse/parse_color.rs: parse_color", "src/parse/parse_attribute.rs: parse_attribute", "src/parse/parse_align.rs: parse_align", "src/parse/mod.rs: parse_style_token, parse_style_tokens"]}
{"id": "C79", "title": "The forms of colors which are accepted", "statement": "A text is read as a color when it is ansi(n), a level of grey below 24, rgb(r, g, b) with any white space after the commas, or # with 3 to 6 hexadecimal digits, with the numbers at most 255, whatever the case of its letters, or a color name; the color is the one told by the numbers; a grey level out of range is told as such; nothing else is read as a color but a text containing a color name.", "quantifier": "every text", "why_tests_cant": "Tests try a few texts; the accepted forms have unbounded numbers of digits and spaces, and what is not accepted can't be enumerated.", "anchors": ["src/parse/parse_color.rs: parse_color", "src/color.rs: gray, ansi, rgb"]}
{"id": "C80", "title": "No color is left behind", "statement": "What is drawn by the rendering of lines, texts, inline snippets, text views, rectangles, input fields, list views and by crop writers is written with exactly the style it's given, whatever was drawn before by them, and the terminal has its default style after; only the separators of the selected row of a list view take a background which isn't theirs, the one of the selection.", "quantifier": "every text, skin, size, view, field, list and sequence of calls on a crop writer (but the two calls setting a color)", "why_tests_cant": "A leaked color only shows with the right combination of styles with and without colors or attributes, one after the other.", "anchors": ["src/compound_style.rs: CompoundStyle::queue, apply_to", "src/styled_char.rs: StyledChar::queue", "src/skin.rs: MadSkin::write_fmt_line", "src/views/list_view.rs: ListView::write_on", "src/views/input_field.rs: InputField::display_on", "src/views/text_view.rs: TextView::write_on", "src/rect.rs: Rect::draw", "src/fit/crop_writer.rs: CropWriter"]}
{"id": "C81", "title": "Colors never change the layout", "statement": "Two skins which only differ by colors and attributes (same alignments and margins, same characters, same borders, same list indentation) format any text in exactly the same lines, and write exactly the same characters and cursor moves when a text is printed, drawn in an area or in a scrolled view, or written as an inline snippet; setting the foreground, the background or the global background of a skin, or blending it, gives such a skin.", "quantifier": "every text, width, area, scroll position, pair of skins of the same shape, and every sequence of color setters", "why_tests_cant": "A test compares a few skins on a few texts; here the layout is independent of all the colors of all skins.", "anchors": ["src/skin.rs: MadSkin::set_fg, set_bg, set_global_bg, blend_with", "src/skin.rs: MadSkin::write_fmt_line, write_fmt_composite", "src/text.rs: FmtText::from_text", "src/views/text_view.rs: TextView::write_on"]}
{"id": "C82", "title": "What is written comes from the text or from the skin", "statement": "Each character printed for a text is either a character of this text, with the style of its kind of line and of its emphasis, or a space, mark, rule or border of the skin, with the style the skin has for it, or a special character, or an end of line (or a part of the scrollbar in a view); an inline snippet cut to a width only gets ellipses in addition. So a skin without style only writes with the colors of the terminal, and a skin limited to ASCII writes an ASCII text in ASCII.", "quantifier": "every text, skin, width, area, scroll position and set of special characters", "why_tests_cant": "Wrapping, table balancing, justification and elision move the characters around; no finite number of texts shows that none of them invents a character or mixes styles.", "anchors": ["src/text.rs: FmtText::from_text", "src/skin.rs: MadSkin::write_fmt_line, write_fmt_composite, limit_to_ascii, no_style", "src/fit/wrap.rs: hard_wrap_lines", "src/tbl.rs: fix_all_tables", "src/code.rs: justify_blocks", "src/views/text_view.rs: TextView::write_on"]}
{"id": "C83", "title": "A text is formatted and printed part by part", "statement": "Cutting a text in two parts anywhere but inside a table or a block of code changes nothing: the lines formatted for the whole text are those of the first part followed by those of the second one, it's printed as the two parts printed one after the other, and it panics only if one of them does; lines out of tables and code are formatted one by one.", "quantifier": "every text, every place where it's cut out of tables and code, every skin and width", "why_tests_cant": "The formatting finds tables and code blocks by their positions, changes the number of lines while it replaces them, and wraps afterwards: a wrong index only shows for some sequences of blocks.", "anchors": ["src/text.rs: FmtText::from_text", "src/tbl.rs: find_tables, fix_all_tables", "src/code.rs: find_blocks, justify_blocks", "src/fit/wrap.rs: hard_wrap_lines"]}
{"id": "C84", "title": "A wider area never makes a text taller", "statement": "When the same text is formatted for a wider area, it never takes more lines.", "quantifier": "all skins, all texts, all pairs of widths", "why_tests_cant": "It compares two executions of the wrapping for every text and every pair of widths; the words are cut differently for each width, so that a test on some widths says nothing of the other ones.", "anchors": ["src/fit/wrap.rs: hard_wrap_composite, hard_wrap_lines", "src/tokens.rs: tokenize", "src/text.rs: FmtText::from_text"]}
{"id": "C85", "title": "A skin which is saved and loaded again settles", "statement": "A skin which is serialized then deserialized can always be read, whatever the order of the entries in the file, and the skin which is read isn't changed any more by saving and loading it again (stated: after one round trip; true in all cases after two).", "quantifier": "all skins, all orders of the entries in the serialized map, all repetitions of saving and loading", "why_tests_cant": "The unit test of serde_skin checks three skins; the skins are an unbounded family (colors, attributes, chars, margins, both forms of scrollbar) and the failing case combines two losses which each look harmless.", "anchors": ["src/serde/serde_skin.rs", "src/serde/serde_scrollbar_style.rs", "src/serde/serde_compound_style.rs", "src/serde/serde_styled_char.rs", "src/parse/parse_compound_style.rs"]}
{"id": "C86", "title": "What the event source has read doesn't stay in it", "statement": "As long as the source is alive and wasn't told to quit, an application which calls unblock(false) once for each event it receives is never blocked together with the thread: an event can be received or the thread goes on, and the thread comes back to reading with everything it has read delivered and received. Answering with unblock(true), or dropping the source, ends a waiting thread at once. And when the source is dropped while the application never took a receiver of events (or of sequences), no event (or sequence) is sent or received any more.", "quantifier": "all reachable states of the event source, all interleavings of the thread and the application, all combiners and options", "why_tests_cant": "It's a liveness property of two processes communicating by three channels: a test runs a few schedules, with a real terminal.", "anchors": ["src/events/event_source.rs"]}
{"id": "C87", "title": "Scrolling in several steps is scrolling at once", "statement": "In a text view, a mad view, or a list view without selection and having at least as many displayed rows as places, a sequence of try_scroll_lines calls in the same direction leads to the same view as one call with the sum of the numbers of lines. In a text view, scrolling down of n lines then up of n lines gives the view back if and only if it was at its top or the end wasn't hit.", "quantifier": "all views, all sequences of numbers of lines (i32, with a sum over i32::MIN)", "why_tests_cant": "The number of calls and of lines isn't bounded, and the equality must hold wherever the bounds of the content are hit.", "anchors": ["src/views/text_view.rs:144-155", "src/views/mad_view.rs", "src/views/list_view.rs:361-374"]}
{"id": "C88", "title": "Wrapping takes the least possible number of lines", "statement": "When a composite is hard-wrapped, no other way to put its words on lines of the same width, cutting between words only and dropping blanks only where lines end, takes less lines; and when every word fits, there is such a way which takes exactly this number of lines.", "quantifier": "every composite, skin, width and every way to put the words on lines", "why_tests_cant": "The claim compares the produced lines with all the exponentially many other cuts, for all texts.", "anchors": ["src/fit/wrap.rs: hard_wrap_composite", "src/tokens.rs: tokenize"]}
{"id": "C89", "title": "What a style text and a skin document mean", "statement": "The tokens of a style text are its words, whatever the blanks. The text is accepted exactly when all of them are understood, else its error is the one of the first bad token. The foreground is the first color (or none), the background the last of the other colors, the attributes are the ones written, the alignment is the last one, the margins are the first and the last of the other numbers, the char is the first one. A skin document is accepted exactly when each entry is; the order of the entries doesn't matter when no part of the skin is set twice, and else the last value is the one kept (but for headers and borders). A scrollbar is a styled char or a map with exactly one track and one thumb.", "quantifier": "every text, every list of tokens, every document and every order of its entries", "why_tests_cant": "Token sequences, orders and documents are unbounded; tests only cover a few hand-written styles.", "anchors": ["src/parse/mod.rs: parse_style_tokens", "src/parse/parse_compound_style.rs", "src/parse/parse_line_style.rs", "src/parse/parse_styled_char.rs", "src/serde/serde_skin.rs: visit_map", "src/serde/serde_scrollbar_style.rs"]}
{"id": "C90", "title": "Without selection, an input content is a plain text with a cursor", "statement": "As long as nothing is selected, an InputFieldContent is exactly a text and a cursor: every operation which doesn't select (moves, word moves, vertical moves, insertions, deletions, line exchanges, replacement of the content) changes the text and the cursor, and answers, as the corresponding operation of an editor whose state is the text before the cursor and the text after it, without lines or positions. Two contents with same text and cursor are equal, every text with every cursor can be reached, and the keys typed in a focused field and the methods of InputField act on the content the same way.", "quantifier": "for all contents, all sequences of operations and keys, all character classifications and widths", "why_tests_cant": "the state space of an editor is unbounded and the operations interact: a test fixes a history, the refinement covers all of them", "anchors": ["src/views/input_field_content.rs", "src/views/input_field.rs"]}
{"id": "C91", "title": "Wrapping again changes nothing", "statement": "hard_wrap_lines leaves a list of lines as it is exactly when every line, with its margins, is shown in the width. So wrapping wrapped lines again, for the same width or a wider one, gives them back, whatever their kinds, styles, blanks and char widths, when each char has some place on its line.", "quantifier": "all skins, lines, widths, character widths", "why_tests_cant": "a fixed point property on all the lines and all the widths", "anchors": ["src/fit/wrap.rs"]}
{"id": "C92", "title": "The ready-made skins have the colors they're made for", "statement": "With the default skin, the one for dark terminals and the one for light terminals, each char of a text has exactly the colors and attributes told by its flags and the kind of its line: gray levels only, bold, italic and struck text by attributes, titles underlined, the first one bold and centered, code on a background. Whatever the text, when a char has a background it has a foreground at least 14 gray levels away. The three skins differ only by colors, so they give the same layout, and the skin without style differs in layout only by the first title, not centered.", "quantifier": "all texts, unicode tables, widths, areas, sets of flags, kinds of lines and header levels, and readable special chars", "why_tests_cant": "no test looks at colors; there are as many combinations of flags, lines and skins as texts", "anchors": ["src/skin.rs:60-162", "src/skin.rs:314-332", "src/color.rs:13-16", "src/scrollbar_style.rs:16-24"]}
{"id": "C93", "title": "A selection changes nothing until it's deleted", "statement": "What an operation does to the text and to the cursor of an input field content, and the boolean it returns, doesn't depend on the selection: only del_selection does. Every other operation, selecting ones included, does exactly what it does in a plain two-string editor, from any content, even one whose selection tail is out of its line; so whole histories without del_selection give the same text and cursor whatever was selected at the start. A selection of just one place is as no selection.", "quantifier": "all contents, selections, histories of operations, unicode tables", "why_tests_cant": "independence from part of the state, over all histories", "anchors": ["src/views/input_field_content.rs:160-700"]}
{"id": "C94", "title": "Things drawn in separate areas don't disturb each other", "statement": "On a terminal (cells, cursor, style in use), the drawing of a text in an area, of a scrollable view, of an input field, of a rectangle gives a picture which depends neither on what was seen before nor on where the cursor was, in all the cells of its area (of its border for a rectangle which isn't filled), changes no other cell and leaves the terminal with its default style. So a new drawing replaces the whole of an older one, and any number of things in separate areas, drawn in any order, are all seen as if they were alone.", "quantifier": "all texts, skins, fields, rectangles, areas, states of the terminal, lists of things to draw and their permutations", "why_tests_cant": "no test of the crate looks at a screen; there are as many screens as histories of drawings", "anchors": ["src/views/text_view.rs:100-190", "src/views/input_field.rs:555-680", "src/rect.rs:60-136", "src/skin.rs:377-390", "src/views/list_view.rs:245-340"]}
{"id": "C95", "title": "What is read on the terminal is the text", "statement": "After a text made of paragraphs, headers, list items and rules was drawn in an area high enough, what is read in the cells of this area, row after row, is, spaces aside, the source text: every char of every line, in order, once, with the bullet of the items before them, and nothing else, whatever was on the terminal before. In a lower area with a scroll s, the row j reads as the line s + j, followed by a char of the scrollbar when there's one. An input field whose text holds in its area reads as its lines, each one followed by spaces.", "quantifier": "all texts of readable lines, skins, areas of 6 columns or more, scrolls, states of the terminal", "why_tests_cant": "end to end relation between the source and the cells of the screen", "anchors": ["src/skin.rs:377-390", "src/skin.rs:513-661", "src/text.rs:52-101", "src/fit/wrap.rs:11-153", "src/views/text_view.rs:102-127", "src/views/input_field.rs:555-669"]}
{"id": "C96", "title": "What is typed is what is in the field, and on the screen", "statement": "An application gives a focused field every event it receives from the event source. Whatever the interleaving of the thread of the source and of the application, the field has at any time the text and cursor which the keys received up to now give in a plain two-string editor, these keys being a prefix, in order and without double nor loss, of the keys read, escape sequences and discarded raw keys (e.g. releases) aside; once everything is received they're all there. In particular a text typed char by char is inserted at the cursor, the keys which complete no combination being left out, and, drawn, it's what is read on the terminal.", "quantifier": "all executions of the source, combiners, options, key streams without selecting keys, fields, unicode tables", "why_tests_cant": "end to end property over all interleavings of two processes", "anchors": ["src/events/event_source.rs:141-310", "src/views/input_field.rs:289-353", "src/views/input_field.rs:432-455", "src/views/input_field.rs:477-680", "src/views/input_field_content.rs:160-700"]}
{"id": "C97", "title": "The borders of tables and rectangles join up", "statement": "In a text formatted for a width and displayed with the standard or rounded borders, every border of a table is at the same column in all the lines of the table and its char has exactly the arms needed at its place: two successive lines of the table join up on every border, every rule is a continuous line from the first border to the last one, and no line goes out of the table (but on the sides of rows which have no rule above or below). The line drawn around a rectangle with one of the line styles is closed: each arm of each char meets an arm of the char of the cell on that side, and there are exactly two arms in each cell of the border. With the half-width style, the filled quarters of cells are exactly the ones along the sides of the area.", "quantifier": "all unicode tables with narrow border chars, all skins whose border chars join up (the standard and the rounded ones do), all source texts fitting in the width, all widths of at least 5, all pairs of successive table lines and all borders; all rectangles of at least 2x2 on the screen", "why_tests_cant": "The tests of the crate don't look at the borders. A swapped corner or a rule whose position is wrong is only seen by looking at the terminal, for some table shapes only.", "anchors": ["src/table_border_chars.rs:1-92", "src/skin.rs:583-661", "src/tbl.rs", "src/rect.rs:15-136"]}
{"id": "C98", "title": "A text read page by page is the text", "statement": "A markdown view shows a source of paragraphs, titles, list items and rules. Whatever is asked to the view (scrolls by lines or pages, keys), it can be drawn, and the row j of its area shows the line j lines after the place the requests lead to, which is never before the first line and never leaves rows empty without need. A reader reading the first screen, then after each page down the rows which weren't on the previous screen, reads after m pages exactly what can be seen of the first m*height lines, in order, nothing being skipped or read twice, whatever was on the terminal; after enough pages it's all what can be seen in the source. Another width brings the reader back at the top of the text formatted for the new width.", "quantifier": "all unicode tables and skins with narrow marks, all sources of readable lines fitting in the width, all areas on screen of at least 6 columns and one row, all sequences of requests without i32 overflow, all numbers of pages, all states of the terminal before each drawing", "why_tests_cant": "No test of the crate scrolls a view and looks at the terminal. A line lost between two pages depends on the height, the number of lines and the position; tests can only try some of them.", "anchors": ["src/views/mad_view.rs:26-102", "src/views/text_view.rs", "src/skin.rs:365-367"]}
{"id": "C99", "title": "A table read on the terminal is the source table", "statement": "When a text with a table is drawn in an area or a scrollable view, the table is found on the terminal as a grid: columns of fixed widths of at least 3 terminal columns, as many as the source line having the most of them, each source line taking some rows (one for a rule), starting right after the rows of the text before the table, and the table being placed as told by the alignment of tables in the skin. Reading, row by row, the terminal cells between two successive borders on the rows of a source row gives, spaces aside, exactly the text of the source cell, nothing if the cell is missing in the source; a vertical border is read at each border column of each of those rows, and a rule is read as its junctions and horizontal lines.", "quantifier": "all unicode tables and skins with narrow marks, all texts made of a table and whatever is before and after it (not table lines next to it), fitting in the width, all areas on screen of at least 6 columns, all scrolls for a view, all states of the terminal before drawing", "why_tests_cant": "No test of the crate looks at a drawn table. Cells are wrapped, completed, aligned and balanced depending on all the other cells and on the width: a char lost or put in another column can happen for only some of the shapes.", "anchors": ["src/tbl.rs:84-201", "src/fit/tbl_fit.rs", "src/skin.rs:513-661", "src/text.rs:52-101", "src/area.rs"]}
{"id": "C100", "title": "A list read on the terminal is the list", "statement": "When a list view is drawn, each line of the terminal in its area is: the titles, each one centered over the run of columns sharing it, with a vertical bar between the runs; the rule, with a crossing or a tee at each separator; then one line per displayed row from the scroll, in which each cell is read in the columns of the terminal of its column, cut when it's too long and else aligned with spaces, with a vertical bar between cells; blank lines where there are no more rows; the scrollbar, when there's one, in the column following the area. So, after any history of additions, clears, filters, sorts, selections and scrolls leaving it at its top, a list which is high enough shows exactly the rows added since the last clear and accepted by the last filter: in the order they were added if no order was ever set, and sorted, stably, if the order was set at first.", "quantifier": "all unicode tables, all lists whose chars are narrow and whose columns fit in the area, all areas on screen, all scrolls not after the last row, all histories, all states of the terminal before drawing", "why_tests_cant": "There's no test of the list view in the crate. What is read depends on the history, the filter, the order, the widths and the alignment, and on the commands written before on the same lines.", "anchors": ["src/views/list_view.rs", "src/spacing.rs", "src/compound_style.rs"]}
{"id": "C101", "title": "The whole text read on the terminal is the source", "statement": "When a text of any kinds of lines (paragraphs, titles, list items, quotes, blocks of code, rules, several tables) is drawn in an area, or in a scrollable view with any legal scroll, the rows of the terminal are shared among the source lines, in order, at least one for each. The rows of a paragraph, a title, an item or a quote are read as parts whose succession is the source text but for some removed blanks, the bullet being read before the first part of an item and the mark before each part of a quote. A line of code has one row and is read with all its blanks, and the lines of a block have the same left. A rule is read over the whole width. The lines of a table have the same columns and are read, cell by cell, as the source. The rows after the text are blank.", "quantifier": "all unicode tables with chars of at most two columns, all usual skins, all texts whose lines have their place in the width, all areas of at least 6 columns on screen, all legal scrolls, all states of the terminal before drawing", "why_tests_cant": "Tests compare a few formatted strings. That all what was written can be read, in order and at its place, whatever the mix of blocks and whatever was on the terminal, is a statement on all texts and all terminals.", "anchors": ["src/text.rs:52-101", "src/fit/wrap.rs:11-153", "src/tbl.rs:84-201", "src/code.rs", "src/skin.rs:513-661", "src/views/text_view.rs:102-127", "src/views/mad_view.rs"]}
{"id": "C102", "title": "A printed text is read on the terminal below what was there", "statement": "When a text of any kinds of lines is printed from the start of a row, on a terminal which has the width the text was formatted for, which wraps the rows which are too long and scrolls, and of which nothing is written below the cursor, then the terminal never wraps: the rows below the cursor are shared among the source lines, in order, each one being read there as it was written (its words, its bullet or mark, its cells, its code with all its blanks). What was above isn't changed, the cursor ends at the start of the row just after the text with the default style, a larger terminal shows the same, and the screen has scrolled by just what is needed for this row to be visible.", "quantifier": "all unicode tables with chars of at most two columns, all usual skins, all texts without newline in a line and whose lines have their place in the width, all terminal widths of at least 5 columns and all heights, all states of the terminal before printing", "why_tests_cant": "Tests compare formatted strings. Whether a full row makes a terminal wrap, and what stays on a screen which scrolls, depends on the sum of the widths of each of the lines for all texts, tables and widths.", "anchors": ["src/skin.rs: MadSkin::term_text, print_text", "src/text.rs:52-101", "src/fit/wrap.rs:11-153", "src/tbl.rs:84-201", "src/skin.rs:513-661"]}
{"id": "C103", "title": "A question and its answers are read on the terminal", "statement": "When a question is asked on a terminal of which nothing is written below the cursor, its text is read first, from the row of the cursor, then each answer is on its own row, in order: its key between brackets, in the bold style of the skin if and only if it's the default answer, then its text with the styles of its compounds, and nothing else on the row, provided the key and the text (with the margins and the alignment of paragraphs) have their place on a row. The cursor ends at the start of the row after the last answer, with the default style, and what was above isn't changed.", "quantifier": "all unicode tables with chars of at most two columns, all usual skins (margins and alignments included), all questions, with or without text and default answer, whose answers are single paragraphs which have their place after their key, all terminal widths of at least 5 columns, all states of the terminal before, whatever the parsing of the markdown", "why_tests_cant": "There's no test of the questions. What is seen depends on two renderings on the same row, one which doesn't know the width and one which is made for the whole of it, for all keys, texts, skins and widths: an answer nearly as wide as the terminal is cut by it (shown by an example).", "anchors": ["src/ask.rs: Question::ask", "src/macros.rs: mad_print_inline", "src/skin.rs: MadSkin::print_text, print_composite", "src/skin.rs:513-574", "src/text.rs:52-101"]}
{"id": "C104", "title": "Every line of a source is reached and read in a scrolled view", "statement": "In a markdown view of an area with a text of any kinds of lines, the formatted rows are shared among the source lines once for all. Whatever was asked to the view (lines, pages, keys), it's drawn, and every source line whose rows are all in the height of the area from the place where the reader is, is read there as it was written. From any of these places, any source line which doesn't take more rows than the area has is brought in full on the screen, and read, by pressing up, or down, a number of times.", "quantifier": "all unicode tables with chars of at most two columns, all usual skins, all texts whose lines have their place in the width, all areas of at least 6 columns and one row, all histories of scrolls, all states of the terminal before", "why_tests_cant": "There's no test of what is seen after scrolls. That no line of any text is out of reach, between two clamped scroll positions, is a statement on all texts, heights and histories.", "anchors": ["src/views/mad_view.rs:34-102", "src/views/text_view.rs", "src/text.rs:52-101", "src/skin.rs:513-661"]}
{"id": "C105", "title": "What is pointed at with the mouse in an input field is what is seen", "statement": "In an input field whose chars take one column, each cell of the text on the terminal shows exactly the char at this place of the scrolled text (or its mask, or an ellipsis, or a space), with the style of the cursor exactly at the cursor and in the selection. Pressing the mouse on a char makes its cell the only one with this style; pressing after the end of a line, on the left ellipsis or below the last line does what is stated. After a press on a char, drags to any places, even outside of the area, and a drag and release on another char, the cells with the style of the cursor are exactly the ones of the chars between both in the reading order; when both are in the same row, the delete and backspace keys remove exactly these chars. After a double click on a char of a word, they're exactly the ones of the word. The chars seen in the cells aren't changed by the mouse.", "quantifier": "all unicode tables with usual widths, all valid focused fields with chars of one column (also as passwords), any scroll, any cells, any way of the mouse, all states of the terminal before", "why_tests_cant": "There's no test of the mouse on a field. Clicks and drawing are two different computations from the scroll, whose agreement in each cell is a statement on all texts, scrolls and cells.", "anchors": ["src/views/input_field.rs:355-428", "src/views/input_field.rs:527-640", "src/views/pos.rs:33-45", "src/views/input_field_content.rs:170-175", "src/views/input_field_content.rs:358-374"]}
{"id": "C106", "title": "What is read on the terminal has the looks told by the text and the skin", "statement": "A text with any kinds of lines is drawn in an area, or in a scrolled view, of a terminal having its default style. In the rows of each source line, each char of it is seen in order, wherever the line is wrapped, with the look made of the style of its kind of line and, over it, of the ones of italic, strikeout, bold and code when it's in them: the last color which is given, for the text and for the background, and all the attributes. The bullets, quote marks, rules, borders of tables, the thumb and track of the scrollbar have their own looks. The blanks around a text have the one of its line, then of paragraphs; the lines of a block of code have the look of the code on the same number of columns, so that the block is a rectangle. The rows after the text have the look of paragraphs. A source with the char of the ellipsis is out of this: the ellipsis may have another look.", "quantifier": "all unicode tables with chars of at most two columns, all usual skins, all texts without ellipsis whose lines have their place in the width, all areas of at least 6 columns, all scrolls, all contents of the terminal before", "why_tests_cant": "The tests don't look at styles. That no char gets the style of another one, through wrapping, tables, paddings and the escape sequences, is a statement on all texts, skins and widths.", "anchors": ["src/skin.rs:314-332", "src/skin.rs:513-661", "src/compound_style.rs:150-162", "src/fit/wrap.rs", "src/views/text_view.rs"]}
{"id": "C107", "title": "The selected row of a list is the one seen with the background of the selection", "statement": "When a list view is drawn on a terminal having its default style, each cell of a row is seen with the look of its style, the background being the one of the selection if and only if the row is the selected one; the separators of the selected row have this background under their own style, the other ones just their style; the titles have the look of the first headers, their separators and the rule the one of the table, the thumb and the track of the scrollbar their own; the lines without row have the default look. So, when no style has the background of the selection, a line is marked over its whole width exactly when it's the one of the selected row, there's exactly one such line when this row is seen, and no place of the other lines has this background. After any history, when the next or the previous row is selected in an area of at least 5 rows, the line which is marked is the one of the closest row of the filter in this direction.", "quantifier": "every list view with consistent titles which fits its area, whatever its rows, columns, styles, skin, selection, filter, order and scroll, on every terminal content", "why_tests_cant": "No test draws a list view; the look of a row depends on all the styles drawn before it, on the selection, on the filter and on the scroll.", "anchors": ["src/views/list_view.rs:245-338", "src/compound_style.rs:122-125", "src/spacing.rs:60-95"]}
{"id": "C108", "title": "What is printed has the looks told by the text and the skin", "statement": "When a text of any kinds of lines is printed from the start of a row, on a terminal having its default style, which has the width the text was formatted for, which wraps the rows which are too long, and of which nothing is written below the cursor, then the rows below the cursor are shared among the source lines, in order, and each char, mark, rule and border of a source line is seen in its rows with the look it has in an area (the style of the line and over it the ones of italic, strikeout, bold and code; blocks of code are rectangles), except that the blanks which would end the row with the look of paragraphs aren't printed: the cells are there as they were.", "quantifier": "all unicode tables with chars of at most two columns, all usual skins, all texts without newline or ellipsis in a line and whose lines have their place in the width, all terminal widths of at least 5 columns, all states of the terminal before printing having its default style", "why_tests_cant": "The tests don't look at styles. Where the looks end on a row, and that none leaks on the next one through the newline, depends on all the styles, kinds of lines and widths.", "anchors": ["src/skin.rs:314-332", "src/skin.rs:513-661", "src/text.rs:52-101", "src/compound_style.rs:150-162", "src/fit/wrap.rs"]}
{"id": "C109", "title": "Texts printed one after the other are all seen, in order", "statement": "Texts of any kinds of lines are printed one after the other, each one with its own skin and formatted for its own width, from the start of a row of a terminal which has at least these widths and its default style, and of which nothing is written below the cursor. At the end each text has its own rows, in the order of the printings and without any row between, and each of its source lines is read in its rows, as it was written, with the looks told by the text and its skin; the cells at the ends of its rows are as they were before everything. What was above or below isn't changed, the cursor is at the start of the row after the last text, with the default style. On a screen which scrolls, the row of the cursor is visible, the screen has scrolled by just what is needed and each source line whose rows are still there is read on the screen.", "quantifier": "all unicode tables with chars of at most two columns, all sequences of texts (without newline or ellipsis in a line, whose lines have their place in the width they are formatted for), of usual skins and of widths of at least 5 columns, all terminals at least as wide, all heights, all states of the terminal before", "why_tests_cant": "Tests format one text. That no text writes over another one, or gives it its looks, is a statement on all sequences of texts, skins and widths.", "anchors": ["src/skin.rs: MadSkin::term_text, print_text", "src/text.rs:52-101", "src/skin.rs:513-661", "src/fit/wrap.rs"]}
{"id": "C110", "title": "An input content is a text with a cursor and a mark", "statement": "An input content behaves as a plain text cut in two by the cursor, with maybe a mark, which is a line number and a number of chars. Whatever the operation of the content, selecting and deleting ones included, the content after it is the one of this reference (typing puts the text before the cursor; the moves only change where the text is cut; removing a wide selection removes the chars told by C09 between the mark and the cursor and forgets the mark; adding or removing lines puts the mark back inside of the text), the boolean told is the one of the reference, and the operation panics exactly when the reference has no result: when the removed part ends on its first line after the end of this line. So any history of operations gives what the reference gives. In a focused field, any sequence of keys, with shift or not, does the same: deleting keys and typed chars replace a wide selection, the other ones begin or keep the selection with shift and end it without, and then move; no key panics. The mouse places the cursor at the place of the text under it, pressing it with shift and dragging it extend the selection and a double click selects the word.", "quantifier": "all unicode tables, all contents whose cursor is in their text (whatever their mark), all operations and histories of operations; all valid fields, all sequences of keys, all mouse events", "why_tests_cant": "The tests of the repository run a few operations on a few texts, without selection. That no operation in any history leaves the mark at another place than the one told is about all states reachable with a selection.", "anchors": ["src/views/input_field_content.rs:76-640", "src/views/input_field.rs:306-448"]}
{"id": "C111", "title": "A wider area never makes a column of a table narrower", "statement": "When a table is laid out in a wider area, each of its columns is at least as wide as before.", "quantifier": "all numbers of columns, all widths of cells, all pairs of available widths", "why_tests_cant": "The tests of the repository balance a few tables in one width each. Comparing the results for all pairs of widths is about all executions of the two cutting steps, with their roundings.", "anchors": ["src/fit/tbl_fit.rs:78-177"]}
{"id": "C112", "title": "A text read in a scrolled view is seen with its looks", "statement": "A mad view of a text is drawn again and again on a terminal, with scrolling operations between the drawings: at each moment the view was drawn at least once, the cells out of its area are those of before the first drawing, the pen has no style left, and each line of the source whose rows are all in the window is seen, from its own row, with the chars and the colors and attributes told by the source and the skin, with the scrollbar beside; nothing is left of the previous drawings. Whatever was read before, presses on up or down followed by a drawing show so any line of the source whose rows are not more than those of the area.", "quantifier": "all unicode tables, usual skins, texts of lines fitting in the area, areas of at least 6 columns, all groups of scrolling operations, all prior contents of the terminal", "why_tests_cant": "The repository has no test of a drawn view. That no drawing leaves anything over the following ones is about all histories of drawings and operations.", "anchors": ["src/views/mad_view.rs:1-103", "src/views/text_view.rs:1-242", "src/skin.rs"]}
{"id": "C113", "title": "Editing neither invents nor duplicates chars", "statement": "After an operation of an input content, whatever the operation, the cursor and the selection, a char is not more frequent in the text than it was, but for the chars the operation types. The operations which don't remove anything keep exactly the chars of the text, with the ones they type. So after any history of operations, each char is there at most as many times as at the beginning plus the number of times it was typed, and the number of lines grows by at most the number of line feeds typed.", "quantifier": "all unicode tables, all contents whose cursor is in their text, all operations and histories of operations, all chars", "why_tests_cant": "The tests of the repository check a few operations on a few texts. That no operation, in any state, duplicates a piece of text (when lines are joined, split, swapped, or partly removed) is about all texts, cursors and selections.", "anchors": ["src/views/input_field_content.rs:76-640"]}
{"id": "C114", "title": "An input field which receives events is seen as it is", "statement": "An input field receives events (keys with any modifiers, mouse, resize, focus and paste events) and is drawn on a terminal after each of them. No event and no drawing panics, the field becomes the one of the events alone, the cells out of its area stay those of before, the pen has no style left, and after each event the area shows exactly the picture of the field as it then is (the chars of the visible lines, the ellipses, the selection or the cursor), with nothing left of the previous drawings. With keys pressed with or without shift, what is seen is the text, the cursor and the selection of the reference of C110.", "quantifier": "all unicode tables, fields with a valid content of chars of one column, areas of at least 2 columns and 1 row, all sequences of events typing chars of one column (within the 65536 rows of u16 coordinates), all prior contents of the terminal", "why_tests_cant": "The repository has no test of a drawn field. That no event sequence makes the drawing panic, leave something of an older drawing, or draw out of the area, is about all histories of events and drawings.", "anchors": ["src/views/input_field.rs:306-475", "src/views/input_field.rs:555-669", "src/views/input_field_content.rs"]}
{"id": "C115", "title": "A view which is resized shows the text in its new area", "statement": "A mad view of a text is drawn again and again on a terminal, with scrolling operations and resizes between the drawings. Nothing panics; the area and the first displayed line are always those of a simple reference (a new width goes back to the beginning, another resize keeps the place, a scroll downwards stops at the last page); the pen has no style left; the cells which are in none of the areas where the view was drawn are those of before; and each line of the source whose rows are all in the window is seen in the current area, from its own row, with its chars, colors and attributes, nothing being left there of the previous drawings, even when a resize has left the view after its last page. The place is never after the end of the text; it is not after the last page when no resize makes the area higher without changing its width, nor after any scroll downwards, even of 0 line. Whatever was asked before, presses on up or down followed by a drawing show any line of the source whose rows are not more than those of the area.", "quantifier": "all unicode tables, usual skins, texts of lines fitting in the areas, all areas of at least 6 columns with room for the row numbers in u16, all groups of scrolling operations and resizes, all prior contents of the terminal", "why_tests_cant": "The repository has no test of a resized view. That no drawing panics or mixes with the previous ones, wherever the resizes have left the scroll, is about all histories of operations, resizes and drawings.", "anchors": ["src/views/mad_view.rs:1-103", "src/views/text_view.rs:76-242", "src/area.rs", "src/skin.rs"]}
{"id": "C116", "title": "An input field used by an application is seen as it is", "statement": "An application calls any methods of an input field (texts set, inserted, cut or replaced, moves, deletions, selections, scrolls, clicks, keys, events, changes of the area, the focus, the styles, the password mode and the new-line keys) and draws it after each group of calls. No call and no drawing panics; the field becomes the one of the calls alone, in the area last given; the cells which are in none of the areas where it was drawn are those of before; the pen has no style left; and after each drawing the area shows exactly the picture of the field as it then is, with nothing left there of the previous drawings. Its text, cursor and selection are those of a history of its content alone, which types nothing but what the calls were given.", "quantifier": "all unicode tables, fields with a valid content, all groups of calls with chars of one column, areas of at least 2 columns and 1 row with room for the row numbers in u16, all prior contents of the terminal", "why_tests_cant": "The repository has no test of a drawn field. That no history of calls makes the drawing panic, leave something of an older drawing or draw out of the area is about all histories, areas and contents.", "anchors": ["src/views/input_field.rs:60-669", "src/views/input_field_content.rs"]}
{"id": "C117", "title": "Several widgets on the same terminal are each seen as if they were alone", "statement": "An application has any number of widgets on the same terminal: texts in scrollable views, input fields, lists and rectangles (a rectangle which isn't filled only has its border, so that a view may be inside it). In any order, operations are asked from one of them and it's drawn. Each widget becomes what it would become alone; in every cell where the others aren't drawn, what is seen is what would be seen if the widget was alone; the other cells aren't changed. When the widgets are kept in separate cells, nothing panics, drawing again any widget as it is would change nothing on the screen, and at any moment each text shows all its lines from its current place with their looks, each field its picture, each list its titles, its rows with the selected one marked and its free lines, and each rectangle its border and its filling.", "quantifier": "all lists of widgets, all sequences of requests (operations, resizes and moves of areas included) which satisfy the hypotheses of C115, C116, C118 and C50, all unicode tables, skins, texts, all prior contents of the terminal", "why_tests_cant": "The repository has no test of a drawing on a terminal, still less of several widgets. Non-interference is about all interleavings of requests on any number of widgets.", "anchors": ["src/views/mad_view.rs", "src/views/text_view.rs", "src/views/input_field.rs", "src/rect.rs", "src/views/list_view.rs"]}
{"id": "C118", "title": "A list is drawn in exactly its cells", "statement": "A list which is drawn changes the cells of its titles, of its separator and of the rows which are seen, in the width of its columns; under them, everything on the right of the left side of its area; and the cells of its scrollbar, just on the right of the area. What it shows in these cells doesn't depend on what the terminal was showing, and no other cell changes. So a list drawn where another one was, at least in the same cells, leaves nothing of it. When the columns fill the area the cells contain the whole area, and when there's neither free line nor scrollbar they're exactly the area.", "quantifier": "all lists of any type of items with any columns and skins which satisfy the hypotheses of C94 (usual titles and cells, chars of one column), all scrolls and selections, all prior contents of the terminal", "why_tests_cant": "No test of the repository draws a list. Which cells may be changed is a statement on all terminals.", "anchors": ["src/views/list_view.rs"]}
{"id": "C119", "title": "From the terminal events to the screen", "statement": "An application has an event source and an input field: it gives the field the events it receives, and draws it when it wants. What it receives is what was read on the terminal, in the same order and once, apart from what is discarded and from the escape sequences. At any moment, whatever the interleaving of the thread of the source and of the application and the batches of events between the drawings, nothing panics, the screen shows the field as it is (text, cursor, selection, scroll), nothing is changed out of the area of the field, and no char is in the field more times than it was there before or was typed. When a text is typed char by char, the screen shows it inserted at the cursor.", "quantifier": "all executions of the event source with all combiners and options, all events (keys, mouse, paste, resizes) whose chars take one column, all fields with enough room, all groupings of the events between drawings, all prior contents of the terminal", "why_tests_cant": "The repository tests neither the event source nor the drawing of fields; the property is about all interleavings and all events, from the thread which reads to the cells of the screen.", "anchors": ["src/events/event_source.rs", "src/views/input_field.rs", "src/views/input_field_content.rs"]}
{"id": "C120", "title": "A question and what is answered are read on the terminal", "statement": "When a question is asked on a terminal which shows what is typed, and an answer is returned, the terminal shows in order, with nothing written below and nothing changed above: the text of the question, its answers, one per row, then for each line which isn't an answer this line on its own row followed by the row `answer ... not understood` with what was typed without its final whitespace, and last the line of the answer which is returned. The cursor is then at the start of the next row with the default style.", "quantifier": "all unicode tables with chars of at most two columns, all usual skins, all questions of C103, all inputs for which an answer is returned, whatever the number of lines before it, when the lines and the messages have their place on a row and end with a new line, all states of the terminal before, whatever the parsing of the markdown and the debug writing of strings", "why_tests_cant": "There's no test of the questions, which need a terminal. What is seen mixes what the program prints and what the terminal echoes, for any number of attempts.", "anchors": ["src/ask.rs: Question::ask", "src/ask.rs:60-99", "src/macros.rs: mad_print_inline", "src/skin.rs: MadSkin::print_text, print_composite"]}
{"id": "C121", "title": "In a form, the events are for the field in which the button was pressed last", "statement": "Several input fields, in areas which have no common cell, receive all the events; when the button is pressed in one of them, the application tells the other ones they don't have the focus. At any time the only field with the focus is the one in which the left button was pressed last. Each field becomes exactly what it would with only the events from a press in it to a press in another one: a field which doesn't have the focus isn't changed by anything as long as the button isn't pressed in it, and after a press in a field the keys which follow edit its text only. Nothing panics. Stopping at the first field which answers the event is for it changes nothing.", "quantifier": "all numbers of fields whose areas are disjoint and on the screen, all contents, scrolls and settings, all sequences of timed events (keys with any modifiers, mouse, resizes, focus, paste)", "why_tests_cant": "The repository has no test of the fields. The property relates the answers and the changes of several fields for all sequences of events; a field takes the focus by itself but never loses it, so that without the application several fields take the same keys (shown by an example).", "anchors": ["src/views/input_field.rs:140-150", "src/views/input_field.rs:376-427", "src/views/input_field.rs:432-455"]}
{"id": "C122", "title": "A form is seen as it is", "statement": "The fields of a form receive the events as in C121, and are all drawn after each event, one after the other. Nothing panics, and at any moment the terminal shows each field as it is (text, scroll, cursor and selection in the field which has the focus, styles) in its area, the cells out of all the areas being those of before. It's so when the events are the ones received from the event source, at any moment of any execution of its thread.", "quantifier": "all numbers of fields with enough room whose areas are disjoint, all sequences of events whose chars take one column, all executions of the event source with all combiners and options, all prior contents of the terminal", "why_tests_cant": "The repository has no test of the drawing of fields; the property is about all sequences of events and all arrangements of fields, from the thread which reads the terminal to the cells of the screen.", "anchors": ["src/views/input_field.rs:376-455", "src/views/input_field.rs:543-680", "src/events/event_source.rs"]}
{"id": "C123", "title": "When widgets are drawn over one another, the last one drawn in a cell is the one which is seen", "statement": "An application has any number of widgets (texts in scrollable views, input fields, lists, rectangles) which may overlap, as a popup over a text, and draws them in any order between operations. In each cell of the terminal, what is seen is exactly what the last widget drawn there has drawn, whatever was there before; the cells where none was drawn aren't changed. The widget drawn last is seen entirely as it is (all the lines of a text from its current place with their looks, the picture of a field, the titles and rows of a list, the border and the filling of a rectangle), and it stays so until another one is drawn in its cells: drawing again a view is enough to make a popup over it disappear.", "quantifier": "all lists of widgets, overlapping or not, all sequences of requests which satisfy the hypotheses of C115, C116, C118 and C50, all unicode tables, skins, texts, all prior contents of the terminal", "why_tests_cant": "The repository has no test of a drawing on a terminal. That nothing of what is under a widget shows through is about all cells, all prior contents and all orders of drawings.", "anchors": ["src/views/mad_view.rs", "src/views/text_view.rs", "src/views/input_field.rs", "src/rect.rs", "src/views/list_view.rs"]}
{"id": "C124", "title": "The application of the example `scrollable` shows its text, and nothing else, whatever is typed and however the terminal is resized", "statement": "In the application of examples/scrollable, the text is in a column of at most 120 chars in the middle of the terminal, all in the screen. Whatever the events, the read errors and the successive sizes of the terminal (of at least 6 columns and one row, the text being laid out in them): nothing panics; the application ends at the first key which isn't up, down, page-up or page-down and writes nothing from there; until then the screen shows exactly the text in the column of the current size, from the place told by the keys, with its looks and its scrollbar, and nothing else, no trace of what was drawn before a resize remaining; and any line which isn't higher than the terminal can be brought wholly on the screen by typing only one key, up or down, as many times as needed.", "quantifier": "all texts, skins and unicode tables satisfying the hypotheses of C115, all sequences of events, errors and sizes", "why_tests_cant": "The example isn't tested; it's an interactive application, whose screen depends on all the keys typed and all the resizes since its start.", "anchors": ["examples/scrollable/main.rs", "src/views/mad_view.rs", "src/area.rs"]}
{"id": "C125", "title": "The application of the example `inputs` keeps its widgets apart, exactly one of them having the focus, and only changes the one with the focus", "statement": "In the application of examples/inputs, whatever the sizes of the terminal and the events, from the start: nothing panics; when the terminal has at least 20 columns and 15 rows, the introduction, the labels and the fields have no common cell, each field is in the row of its label, and all but the label of the comments are in the terminal, the fields having at least 8 columns; the password is never shown, and only the comments have a new-line key; exactly the widget told by the view has the focus. Escape gives the focus to the introduction, tab goes round the four widgets, a mouse event gives it to the field of its cell, or to the introduction when there's none; nothing else moves it. A key which is neither escape nor tab changes nothing but the text, the cursor and the scroll of the field with the focus, or the scroll of the introduction; the other events change no text.", "quantifier": "all unicode tables, introductions, skins, styles and initial comments, all u16 sizes, all sequences of keys, mouse events, resizes and clipboard answers", "why_tests_cant": "The example isn't tested; it's an interactive application, with an unbounded number of events and sizes.", "anchors": ["examples/inputs/view.rs", "examples/inputs/clipboard.rs", "src/views/input_field.rs", "src/views/mad_view.rs"]}
