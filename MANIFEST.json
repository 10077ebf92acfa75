{
 "claims": [
  {
   "property": "C01",
   "status": "partial",
   "theorems": [
    "C01_histories_are_safe_partial",
    "C01_each_operation_is_safe_partial",
    "C01_histories_are_safe_refuted",
    "C01_exact",
    "C01_histories_exact",
    "C01_tails_in_text"
   ],
   "note": "False with set_selection_tail, which clamps the tail with the line of the cursor (refuted). C01_exact and C01_histories_exact: a history panics exactly when it deletes a selection whose tail is after the end of the line of the cursor, which only happens after a set_selection_tail. Proved for all histories without set_selection_tail, and for all those in which the given tails are positions of the text (C01_tails_in_text)."
  },
  {
   "property": "C02",
   "status": "proved",
   "theorems": [
    "C02_from_string",
    "C02_iteration_is_display",
    "C02_is_str",
    "C02_set_str",
    "C02_is_empty",
    "C02_push_char"
   ],
   "note": "Full: from, Display, iteration, is_str, set_str, is_empty, push_char."
  },
  {
   "property": "C03",
   "status": "proved",
   "theorems": [
    "C03_insert_char",
    "C03_insert_new_line",
    "C03_insert_str"
   ],
   "note": "Full: refinement to text and cursor offset."
  },
  {
   "property": "C04",
   "status": "partial",
   "theorems": [
    "C04_delete_left",
    "C04_delete_below_partial",
    "C04_delete_below_refuted",
    "C04_type_then_delete"
   ],
   "note": "Delete left and type-then-delete full. Delete below is false at the end of a text whose last line is empty: the previous line feed is removed (refuted); exact behaviour proved in all cases."
  },
  {
   "property": "C05",
   "status": "proved",
   "theorems": [
    "C05_move_right",
    "C05_move_left",
    "C05_can_move",
    "C05_left_undoes_right",
    "C05_right_undoes_left",
    "C05_to_end",
    "C05_to_start",
    "C05_to_line_end",
    "C05_to_line_start",
    "C05_set_cursor"
   ],
   "note": "Full."
  },
  {
   "property": "C06",
   "status": "proved",
   "theorems": [
    "C06_up",
    "C06_down"
   ],
   "note": "Full, for any width oracle."
  },
  {
   "property": "C07",
   "status": "proved",
   "theorems": [
    "C07_word_left",
    "C07_word_right",
    "C07_delete_word_left",
    "C07_delete_word_right"
   ],
   "note": "Full: exact targets of moves and deletions."
  },
  {
   "property": "C08",
   "status": "proved",
   "theorems": [
    "C08_selection_is_ordered",
    "C08_reading_order",
    "C08_contains",
    "C08_selection_string",
    "C08_set_tail"
   ],
   "note": "Full."
  },
  {
   "property": "C09",
   "status": "partial",
   "theorems": [
    "C09_inline_partial",
    "C09_whole_lines_partial",
    "C09_nothing_else_lost_partial",
    "C09_wide_selection",
    "C09_multiline_refuted",
    "C09_cut_paste_refuted",
    "C09_rows",
    "C09_row",
    "C09_cases"
   ],
   "note": "False for multi-line selections and for in-line selections reaching the end of a non last line (refuted). Proved: exactness for in-line and whole line selections, no panic and no loss of non line feed chars outside of the selection in all cases. C09_row, C09_rows and C09_cases: exactly which lines are left by every wide selection, and where the cursor is: whole lines are removed unless there is just one of them, the char at the end is kept when the selection goes over several lines."
  },
  {
   "property": "C10",
   "status": "partial",
   "theorems": [
    "C10_line_up_partial",
    "C10_line_down_partial",
    "C10_up_then_down_partial",
    "C10_swap_lines",
    "C10_cursor_refuted"
   ],
   "note": "Lines part full. 'Cursor stays on the same char' is false when the neighbour is shorter (refuted); exact cursor given."
  },
  {
   "property": "C11",
   "status": "proved",
   "theorems": [
    "C11_select_word"
   ],
   "note": "Full."
  },
  {
   "property": "C12",
   "status": "partial",
   "theorems": [
    "C12_only_scroll",
    "C12_row_partial",
    "C12_below_hidden",
    "C12_vertical_scroll",
    "C12_horizontal_scroll",
    "C12_column_partial",
    "C12_drawn_partial",
    "C12_below_refuted",
    "C12_backspace_refuted",
    "C12_delete_refuted",
    "C12_small_width_refuted",
    "C12_password_refuted"
   ],
   "note": "fix_scroll is fully specified and the cursor is drawn where it should be when the width is at least 4 and the row isn't the one just below the window. Refuted: moving down to the row just below the window doesn't scroll, Backspace and Delete keys don't scroll, widths under 4, password mode with wide chars."
  },
  {
   "property": "C13",
   "status": "partial",
   "theorems": [
    "C13_rows_partial",
    "C13_no_panic",
    "C13_cursor_partial",
    "C13_cursor_refuted",
    "C13_no_room_refuted",
    "C13_tab_refuted"
   ],
   "note": "Rows, no panic and cursor position in the area. Refuted: the returned position is one column left of the drawn cursor when there's a left ellipsis; an area of 1 column with a scrollbar overflows; tabs are written as is."
  },
  {
   "property": "C14",
   "status": "partial",
   "theorems": [
    "C14_key_move",
    "C14_key_ignored",
    "C14_key_delete",
    "C14_key_char",
    "C14_key_combination",
    "C14_new_line_key",
    "C14_key_event",
    "C14_event",
    "C14_unfocused_partial",
    "C14_false",
    "C14_mouse_outside",
    "C14_mouse_unfocused",
    "C14_mouse",
    "C14_single_line_partial",
    "C14_single_line_refuted",
    "C14_unfocused_keycode_refuted",
    "C14_event_new_line_refuted"
   ],
   "note": "Exact tables of the keys and mouse events; false on a key leaves all but the selection; unfocused fields ignore keys; clicks outside do nothing; new-line keys insert a line break; single-line fields stay so. Refuted: apply_keycode_event isn't guarded by the focus, apply_event ignores the new-line keys, the Char('\\n') key adds a line."
  },
  {
   "property": "C15",
   "status": "partial",
   "theorems": [
    "C15_click",
    "C15_unique",
    "C15_displayed_partial",
    "C15_narrow",
    "C15_line_end",
    "C15_wide_refuted",
    "C15_cut_refuted"
   ],
   "note": "Exact position of a click for all widths, always in the text; the drawn char at this place when no wide char is cut. Refuted: second column of a wide char, wide char cut by the scroll."
  },
  {
   "property": "C16",
   "status": "proved",
   "theorems": [
    "C16_fitting_prefix",
    "C16_longest",
    "C16_made_columns"
   ],
   "note": "Full. Made columns: for strings without backspace (a backspace counts -1 in the code)."
  },
  {
   "property": "C17",
   "status": "partial",
   "theorems": [
    "C17_never_more_partial",
    "C17_remaining_partial",
    "C17_styled_tab_refuted",
    "C17_remaining_refuted"
   ],
   "note": "Proved for all histories of calls within the documented restrictions (gentle strings and fillings of width 1), without styled tab char; exact remaining count without backspaces. Refuted: queue_char sends a tab as is; backspaces aren't given back."
  },
  {
   "property": "C18",
   "status": "partial",
   "theorems": [
    "C18_fitting_string_is_written",
    "C18_long_string_is_cut",
    "C18_g_string",
    "C18_char_partial",
    "C18_wide_char_is_dropped",
    "C18_repeat",
    "C18_fill",
    "C18_char_refuted",
    "C18_null_width_refuted"
   ],
   "note": "Strings, gentle strings, repetitions and fills: full. Refuted for chars (strict comparison drops a char filling exactly the remaining columns) and null-width strings at the limit."
  },
  {
   "property": "C19",
   "status": "proved",
   "theorems": [
    "C19_filling",
    "C19_fill_bg"
   ],
   "note": "Full."
  },
  {
   "property": "C20",
   "status": "proved",
   "theorems": [
    "C20_completions",
    "C20_optional",
    "C20_write_str",
    "C20_write_counted_str",
    "C20_columns"
   ],
   "note": "Full."
  },
  {
   "property": "C21",
   "status": "proved",
   "theorems": [
    "C21_error",
    "C21_fit",
    "C21_never_wider"
   ],
   "note": "Full functional specification of the balancing of columns, from any sequence of seen cells."
  },
  {
   "property": "C22",
   "status": "partial",
   "theorems": [
    "C22_reduced_partial",
    "C22_average_kept_partial",
    "C22_widest_first",
    "C22_fair_refuted",
    "C22_reduced_refuted"
   ],
   "note": "The reduction isn't proportional in the code's second step (equally wide columns get 3 and 100): refuted. Proved: averages are kept when possible, cuts go to the widest first, and the flag is exact but for one column tables."
  },
  {
   "property": "C23",
   "status": "partial",
   "theorems": [
    "C23_overflow",
    "C23_exact",
    "C23_lines_fit_partial",
    "C23_plain_lines_fit",
    "C23_wide_quote_refuted",
    "C23_item_refuted"
   ],
   "note": "Proved when no char is wider than what the lines after the first one can hold (always the case for paragraphs, headers and code with chars at most 2 wide). Refuted otherwise: wide char in a quote, list item of depth 1, at width 3. C23_overflow: whatever the chars, a line is too wide only when made of one char which can't fit; C23_exact tells exactly when all lines fit."
  },
  {
   "property": "C24",
   "status": "partial",
   "theorems": [
    "C24_text_kept",
    "C24_non_blank_kept",
    "C24_not_glued_partial",
    "C24_glued_refuted"
   ],
   "note": "Only whitespaces are dropped, styles and order kept: full. No gluing: proved with single blanks of width 1 and visible chars; refuted with several blanks (aaaa, 3 spaces, b at width 5 gives aaaab)."
  },
  {
   "property": "C25",
   "status": "partial",
   "theorems": [
    "C25_kinds",
    "C25_cached_length",
    "C25_from_length",
    "C25_not_empty_partial",
    "C25_empty_line_refuted"
   ],
   "note": "Kinds, spacing and cached lengths: full. No empty line: proved when all chars fit beside the bullet and compounds aren't empty; refuted otherwise (line with only the bullet)."
  },
  {
   "property": "C26",
   "status": "partial",
   "theorems": [
    "C26_exact",
    "C26_composite",
    "C26_error_partial",
    "C26_no_panic_partial",
    "C26_lines",
    "C26_error_refuted",
    "C26_panic_refuted"
   ],
   "note": "Exact error condition and absence of panic when bullets fit between the margins. C26_exact tells exactly which lines panic: those too large whose bullet does not fit between the margins. The if and only if of the error is refuted (no line to wrap: no error), and a list item of depth 2 at width 3 panics (refuted)."
  },
  {
   "property": "C27",
   "status": "partial",
   "theorems": [
    "C27_aligned_exact",
    "C27_fits_partial",
    "C27_no_place",
    "C27_no_panic_partial",
    "C27_narrow_no_panic",
    "C27_left_no_panic",
    "C27_panic_refuted",
    "C27_empty_compound_refuted",
    "C27_fits_refuted",
    "C27_length_refuted"
   ],
   "note": "Partial: fits when there is place for an ellipsis after the bullet or quote mark. No panic for tokens with something in their middle and (for center/right) without empty compounds; for the alignments, C27_aligned_exact tells exactly which composites panic. Refuted in general: two wide chars panic, an empty compound panics when aligned right, prefixes are not counted."
  },
  {
   "property": "C28",
   "status": "proved",
   "theorems": [
    "C28_again",
    "C28_unchanged",
    "C28_elided",
    "C28_tiny",
    "C28_left",
    "C28_right",
    "C28_center",
    "C28_center_one",
    "C28_token_cut",
    "C28_compound_cut",
    "C28_cuts",
    "C28_default",
    "C28_default_fitter"
   ],
   "note": "Proved, for all alignments and for the internal ellisions. Fitting again is the identity."
  },
  {
   "property": "C29",
   "status": "partial",
   "theorems": [
    "C29_filled_partial",
    "C29_extend",
    "C29_printed_partial",
    "C29_exact",
    "C29_margin_refuted",
    "C29_mark_refuted"
   ],
   "note": "C29_exact gives the number of columns for every composite, width and alignment. False because of the margins, which are added to the width (C29_margin_refuted), and of bullets and quote marks when there's no place for them (C29_mark_refuted); the call can panic as told in C27."
  },
  {
   "property": "C30",
   "status": "partial",
   "theorems": [
    "C30_printed_partial",
    "C30_columns",
    "C30_widths",
    "C30_cells_fit_partial",
    "C30_cells_fit_refuted"
   ],
   "note": "Cells which are list items can be wider than their column (C30_cells_fit_refuted). C30_printed_partial: every line of a laid out table prints exactly on the width."
  },
  {
   "property": "C31",
   "status": "proved",
   "theorems": [
    "C31_replaced",
    "C31_text"
   ],
   "note": "Proved, with the text equal but for whitespaces removed by wrapping."
  },
  {
   "property": "C32",
   "status": "partial",
   "theorems": [
    "C32_exact",
    "C32_text_exact",
    "C32_no_panic_partial",
    "C32_wide_enough",
    "C32_refuted",
    "C32_text_no_panic_partial"
   ],
   "note": "Partial: no panic when the width allows all the columns, or for full rows or short cells. C32_exact and C32_text_exact tell exactly which tables and texts panic (cells whose bullet takes at most 3 columns). Refuted in general: when columns are removed, a row shorter than the kept columns with a cell to wrap panics."
  },
  {
   "property": "C33",
   "status": "proved",
   "theorems": [
    "C33_position_before",
    "C33_positions"
   ],
   "note": "Proved for texts whose rules have the Other position, which is the case of all texts to format."
  },
  {
   "property": "C34",
   "status": "partial",
   "theorems": [
    "C34_block",
    "C34_block_exact",
    "C34_wrapped_refuted",
    "C34_printed",
    "C34_justified"
   ],
   "note": "Justification proved. Refuted: wrapped lines of code keep the spacing of the block and are printed wider than the width (C34_wrapped_refuted). C34_block and C34_block_exact: in the formatted text, all the lines of a block, wrapped or not, take the columns of the biggest source line with the margins, or the asked width if it's greater (C83 lets it be used for a block inside a text)."
  },
  {
   "property": "C35",
   "status": "partial",
   "theorems": [
    "C35_drawn",
    "C35_no_panic",
    "C35_panics",
    "C35_exact_partial",
    "C35_overflow",
    "C35_not_completed",
    "C35_no_width",
    "C35_empty_rule_refuted",
    "C35_special_refuted",
    "C35_spacing_refuted",
    "C35_inline",
    "C35_visible_line_length"
   ],
   "note": "All that is written is specified char by char (C35_drawn), and C35_panics tells exactly which lines cannot be written (a header of level 0; the continuation of a list item of depth 255 with the block indentation, where depth + 1 overflows). The width is exact when the content fits in its spacing, skin chars take one column, special chars have the width of what they replace and rules have columns; otherwise refuted: a rule without column takes 2 columns, replacements, spacings smaller than the content."
  },
  {
   "property": "C36",
   "status": "partial",
   "theorems": [
    "C36_composition",
    "C36_ellipsis",
    "C36_ellipsis_only",
    "C36_overwrite",
    "C36_associative",
    "C36_unit_partial",
    "C36_left_unit_refuted",
    "C36_attributes",
    "C36_setters"
   ],
   "note": "Composition, precedence and associativity full; the empty style isn't a left unit for a style having an underline color (refuted). C36_setters: each setter of a compound style changes what it's made for and nothing else."
  },
  {
   "property": "C37",
   "status": "partial",
   "theorems": [
    "C37_blend_refuted",
    "C37_blend_actual_partial",
    "C37_identity",
    "C37_skin"
   ],
   "note": "False: blend_with blends twice the foreground and never the background (refuted); actual behaviour proved, as well as the documented 'weight 0 changes nothing'."
  },
  {
   "property": "C38",
   "status": "partial",
   "theorems": [
    "C38_drawn_partial",
    "C38_setters",
    "C38_drawn_refuted",
    "C38_scrollbar",
    "C38_gray"
   ],
   "note": "Proved for all histories of setters; false with blend_with, which leaves the cached styled char unchanged (refuted)."
  },
  {
   "property": "C39",
   "status": "partial",
   "theorems": [
    "C39_none_iff_fits",
    "C39_inside_partial",
    "C39_top_iff_not_scrolled",
    "C39_monotone",
    "C39_end_touches_bottom",
    "C39_bottom_only_at_end_partial",
    "C39_bottom_tall",
    "C39_last_row_refuted",
    "C39_one_row_refuted",
    "C39_bottom_small_refuted",
    "C39_bottom_tall_refuted"
   ],
   "note": "Exact conditions under which the thumb touches the bottom; the claims on the last row are false for the faithful model (see the refuted theorems): the last row may be just below the area, one-row areas, small areas, tall contents."
  },
  {
   "property": "C40",
   "status": "partial",
   "theorems": [
    "C40_set_scroll",
    "C40_scroll_lines_partial",
    "C40_floor_ceil",
    "C40_pages_to_lines",
    "C40_pages_extremes",
    "C40_scroll_pages_partial",
    "C40_line_up",
    "C40_line_down",
    "C40_page_up_partial",
    "C40_page_down_partial",
    "C40_keys_partial",
    "C40_each_call_partial",
    "C40_histories_partial",
    "C40_mad_lines_partial",
    "C40_mad_pages_partial",
    "C40_mad_keys_partial",
    "C40_mad_histories_partial",
    "C40_mad_resize_partial",
    "C40_min_refuted",
    "C40_pages_refuted",
    "C40_null_height_refuted",
    "C40_null_height_up_refuted",
    "C40_mad_resize_refuted",
    "C40_mad_pages_refuted",
    "C40_mad_null_width_refuted"
   ],
   "note": "Functional specification of every scrolling call. False for i32::MIN (negation overflow), a null height (wrong boolean) and a MadView resized taller. The f64 numbers of pages are modelled exactly, with NaN and infinities. C40_floor_ceil: the roundings used are the floor and the ceiling."
  },
  {
   "property": "C41",
   "status": "proved",
   "theorems": [
    "C41_page_downs",
    "C41_page_up_undoes",
    "C41_page_down_undoes",
    "C41_whole_pages"
   ],
   "note": "Page downs from the top cover all lines and reach the end; page up and page down undo each other."
  },
  {
   "property": "C42",
   "status": "partial",
   "theorems": [
    "C42_input_field_partial",
    "C42_tall_field_refuted",
    "C42_field_exact",
    "C42_text_view_partial",
    "C42_hidden",
    "C42_tall_refuted",
    "C42_exact"
   ],
   "note": "Text view and input field; false above 65535 lines (truncation to u16). C42_exact and C42_field_exact: for any number of lines, the scrollbar is there exactly when this number, as a u16, is over the height; C42_panic_example shows a scrolled text of 131333 lines for which it panics."
  },
  {
   "property": "C43",
   "status": "proved",
   "theorems": [
    "C43_consistent",
    "C43_in_order"
   ],
   "note": "Proved for all histories. (A filter may leave a hidden row selected: example.)"
  },
  {
   "property": "C44",
   "status": "proved",
   "theorems": [
    "C44_nothing",
    "C44_next",
    "C44_first",
    "C44_first_line",
    "C44_last_line",
    "C44_reachable",
    "C44_only_scroll"
   ],
   "note": "Proved for all lists, filters, selections and directions; the scroll is then the one of make_selection_visible (C45)."
  },
  {
   "property": "C45",
   "status": "partial",
   "theorems": [
    "C45_visible_partial",
    "C45_visible_scroll",
    "C45_visible_panics",
    "C45_select_panic_refuted",
    "C45_small_refuted",
    "C45_all_fit_refuted",
    "C45_scroll_down",
    "C45_scroll_up",
    "C45_scroll_pages",
    "C45_scroll_panic_refuted",
    "C45_scroll_min_refuted",
    "C45_in_rows",
    "C45_in_rows_refuted",
    "C45_bottom",
    "C45_bottom_refuted",
    "C45_add",
    "C45_add_still"
   ],
   "note": "Exact panic condition, exact scrolls, invariant scroll <= rows, visibility when the area has 5 lines or more. Refuted: subtraction underflow when the last visible row is selected at the top, scrolling down a short list, i32::MIN, heights 3 and 4, list just fitting scrolled by one, empty area, bottom of a filtered list."
  },
  {
   "property": "C46",
   "status": "partial",
   "theorems": [
    "C46_widths_partial",
    "C46_min_over_max_refuted",
    "C46_no_max_refuted",
    "C46_exact"
   ],
   "note": "Proved for bounds in order and below 2^31. Refuted when max < min (panic) and when max is usize::MAX (width usize::MAX). C46_exact says exactly when it panics, for bounds which are i32."
  },
  {
   "property": "C47",
   "status": "partial",
   "theorems": [
    "C47_reachable",
    "C47_new",
    "C47_cell",
    "C47_new_parts",
    "C47_row",
    "C47_separator",
    "C47_title",
    "C47_printed_partial",
    "C47_wide_refuted"
   ],
   "note": "Proved in chars, position by position, for all columns, titles and cells; in columns only for chars of width 1 (cells are measured in chars: refuted with wide chars)."
  },
  {
   "property": "C48",
   "status": "partial",
   "theorems": [
    "C48_sorted",
    "C48_inserted",
    "C48_unsorted",
    "C48_kept",
    "C48_always",
    "C48_selection_partial",
    "C48_selection_refuted",
    "C48_sort_later_refuted"
   ],
   "note": "Sorted, stable, inserted in place, for all histories with a total order. Refuted: the selection isn't moved with its row; setting an order doesn't sort the rows already present."
  },
  {
   "property": "C49",
   "status": "partial",
   "theorems": [
    "C49_contains_partial",
    "C49_edges_partial",
    "C49_pad_partial",
    "C49_max_width_partial",
    "C49_uninitialized",
    "C49_pad_too_big_refuted",
    "C49_overflow_refuted",
    "C49_contains_exact",
    "C49_edges_exact",
    "C49_pad_exact",
    "C49_max_width_exact"
   ],
   "note": "Areas whose right and bottom fit in u16. A too big padding panics (documented in the code), and contains overflows at the last column of u16. C49_contains_exact, C49_edges_exact, C49_pad_exact and C49_max_width_exact say exactly when each function panics, for all areas."
  },
  {
   "property": "C50",
   "status": "proved",
   "theorems": [
    "C50_cells",
    "C50_area",
    "C50_panics",
    "C50_line",
    "C50_setters"
   ],
   "note": "The area must have a right and a bottom below 65536 (otherwise Area::right and bottom can not be computed; C50_panics tells exactly when drawing panics). The rectangles smaller than 2x2, out of the statement, are shown in C50_narrow and C50_flat to be drawn out of their area."
  },
  {
   "property": "C51",
   "status": "partial",
   "theorems": [
    "C51_exact",
    "C51_read_back_partial",
    "C51_read_back_refuted",
    "C51_texts_distinct",
    "C51_injective"
   ],
   "note": "False for the 7 colors whose printed name is read as another color or as nothing (C51_read_back_refuted: DarkBlue, DarkCyan, DarkYellow, DarkGrey, Black, White, Reset). C51_exact gives what every color is read back as, C51_read_back_partial proves it is the same color exactly for the others. The regexes are modelled as functions on chars; the Unicode classes of the regex crate are a parameter with its ASCII part known. C51_injective: distinct colors have distinct texts."
  },
  {
   "property": "C52",
   "status": "partial",
   "theorems": [
    "C52_tokens",
    "C52_attributes",
    "C52_attribute_texts",
    "C52_exact",
    "C52_read_back_partial",
    "C52_stable",
    "C52_reset_refuted",
    "C52_blink_refuted",
    "C52_write_style_tokens_refuted"
   ],
   "note": "False for the colors of C51, the underline color, and the attributes which aren't printed (Reset, SlowBlink, RapidBlink, the No ones): C52_exact gives the style which is read back for every style, C52_read_back_partial characterises the unchanged ones. C52_write_style_tokens_refuted: write_style_tokens glues its tokens. C52_attribute_texts: distinct printed attributes have distinct texts."
  },
  {
   "property": "C53",
   "status": "partial",
   "theorems": [
    "C53_line_exact",
    "C53_line_read_back_partial",
    "C53_margin_refuted",
    "C53_char_exact",
    "C53_char_read_back_partial",
    "C53_char_stable",
    "C53_char_refuted"
   ],
   "note": "Exact results for every style and char (C53_line_exact, C53_char_exact) and characterisation of what is read back unchanged; false for margins over 65535, and for chars which are spaces, parentheses or digits."
  },
  {
   "property": "C54",
   "status": "partial",
   "theorems": [
    "C54_exact",
    "C54_read_back_partial",
    "C54_defaults",
    "C54_render_partial",
    "C54_headers_text",
    "C54_headers_levels",
    "C54_keys",
    "C54_unknown_key",
    "C54_documents",
    "C54_indent_refuted",
    "C54_color_refuted",
    "C54_special_refuted",
    "C54_scrollbar_refuted",
    "C54_borders_refuted"
   ],
   "note": "serde and its formats are not modelled: documents are trees of texts, sequences and maps, with entries in any order. C54_exact gives the skin read back for every skin, C54_read_back_partial tells exactly when it's the same, C54_defaults proves it for the default skins. The indentation mode, the special chars, the unnamed table borders, and part of the simple scrollbars are lost."
  },
  {
   "property": "C55",
   "status": "partial",
   "theorems": [
    "C55_cut",
    "C55_exact",
    "C55_received",
    "C55_once_partial",
    "C55_losses",
    "C55_defaults",
    "C55_full_refuted"
   ],
   "note": "Proved for every execution of the reading thread and of the application: what is delivered is exactly the cut of the stream (C55_cut, C55_exact), in order (C55_received), once when nothing is lost (C55_once_partial). C55_defaults says what the default options deliver: everything but the mouse moves and the keys which complete no combination. False in one case: an escape sequence is dropped when 10 are waiting unreceived (C55_full_refuted); C55_losses shows it's the only one as long as the source isn't dropped. The combiner of crokey is an arbitrary state machine."
  },
  {
   "property": "C56",
   "status": "partial",
   "theorems": [
    "C56_form",
    "C56_runs_partial",
    "C56_text",
    "C56_runs_refuted"
   ],
   "note": "C56_form: all delivered sequences have the form. C56_runs_partial: a run of that form is delivered as one sequence when it doesn't begin inside an unfinished one; false otherwise (C56_runs_refuted)."
  },
  {
   "property": "C57",
   "status": "proved",
   "theorems": [
    "C57_double_click",
    "C57_received"
   ],
   "note": "For every execution, whatever the times given by the clock."
  },
  {
   "property": "C58",
   "status": "partial",
   "theorems": [
    "C58_credit",
    "C58_one_by_one_partial",
    "C58_count",
    "C58_unblock_panics",
    "C58_progress",
    "C58_no_spin",
    "C58_early_unblock_refuted",
    "C58_early_quit_refuted"
   ],
   "note": "One event per unblock when unblock is called once per received event (C58_one_by_one_partial), and the exact credit whatever the calls (C58_credit). False when unblock is called in advance (C58_early_unblock_refuted, C58_early_quit_refuted). Also: the count, the panic of unblock after the end of the thread, no deadlock and no endless loop of the thread."
  },
  {
   "property": "C59",
   "status": "proved",
   "theorems": [
    "C59_at_most",
    "C59_payload",
    "C59_ids",
    "C59_received",
    "C59_exactly",
    "C59_infinite",
    "C59_missions",
    "C59_independent",
    "C59_local",
    "C59_receiver"
   ],
   "note": "For every interleaving of the calls, of the threads, of time and of the receiver. C59_exactly: the beam has sent its count when it ends, and can reach its end from every reachable state by its own steps and time only. C59_missions states it for the three constructors: one tick, several ticks, ticks without end."
  },
  {
   "property": "C60",
   "status": "proved",
   "theorems": [
    "C60_after_stop",
    "C60_thread_ends",
    "C60_after_stop_all",
    "C60_others",
    "C60_never_blocks"
   ],
   "note": "At most one tick after stop_beam or stop_all_beams returned (one is reachable: C60_one_more); the thread ends in at most 3 steps which never wait; the others are unchanged; no call blocks in any reachable state."
  },
  {
   "property": "C61",
   "status": "proved",
   "theorems": [
    "C61_answer",
    "C61_returned",
    "C61_error",
    "C61_prompt",
    "C61_build"
   ],
   "note": "C61_answer: exactly when a key is returned, what has been printed and what remains of the input; C61_error for failures of the reading. The typed text is the line without its trailing whitespace. Rendering of the prompt not included (trace of the texts)."
  },
  {
   "property": "C62",
   "status": "partial",
   "theorems": [
    "C62_ends_partial",
    "C62_iff",
    "C62_eof_refuted"
   ],
   "note": "False without default: at the end of the input the question is asked forever (C62_eof_refuted). C62_iff characterises the inputs for which it returns, C62_ends_partial bounds the number of reads."
  },
  {
   "property": "C63",
   "status": "partial",
   "theorems": [
    "C63_no_panic",
    "C63_width_partial",
    "C63_complete_partial",
    "C63_zero",
    "C63_monotone",
    "C63_precise",
    "C63_padded",
    "C63_complete_refuted",
    "C63_too_long_refuted"
   ],
   "note": "Exact model of the binary32 operations used. The width and completeness hold for the widths which are f32 numbers, among which all those up to 2^24; the width is rounded to a f32, so that they are false for other ones (C63_complete_refuted, C63_too_long_refuted). Monotonicity, no panic and emptiness at 0 hold for all widths; C63_precise bounds the error. C63_padded: formatted with a width in the braces (Formatter::pad is modelled), it takes exactly it."
  },
  {
   "property": "C64",
   "status": "proved",
   "theorems": [
    "C64_set_fg",
    "C64_set_bg",
    "C64_others",
    "C64_global_bg",
    "C64_ascii",
    "C64_defaults",
    "C64_line_style"
   ],
   "note": "Full."
  },
  {
   "property": "C65",
   "status": "proved",
   "theorems": [
    "C65_margins"
   ],
   "note": "Full."
  },
  {
   "property": "C66",
   "status": "partial",
   "theorems": [
    "C66_text_row_partial",
    "C66_rows_partial",
    "C66_row_columns",
    "C66_mad_view_partial",
    "C66_null_width_refuted",
    "C66_exact"
   ],
   "note": "Rows drawn by a text view, relative to the rendering of a line. Panics for a null width with a scrollbar. C66_exact says exactly when drawing panics."
  },
  {
   "property": "C67",
   "status": "proved",
   "theorems": [
    "C67_words",
    "C67_compounds",
    "C67_greedy",
    "C67_clean_cut"
   ],
   "note": "Full."
  },
  {
   "property": "C68",
   "status": "proved",
   "theorems": [
    "C68_alignments"
   ],
   "note": "Proved."
  },
  {
   "property": "C69",
   "status": "partial",
   "theorems": [
    "C69_printed_partial",
    "C69_displayed",
    "C69_lines",
    "C69_prose_kept",
    "C69_fits_partial",
    "C69_content_width",
    "C69_line_lengths",
    "C69_row_width_refuted",
    "C69_overflow"
   ],
   "note": "Line conversion, prose kept, lengths, printed width of every line of a text. Missing in C69_printed_partial: sources with code lines larger than the width, lead and margins larger than the width. C69_overflow: whatever the source, a line out of the tables is too wide only when made of one char."
  },
  {
   "property": "C70",
   "status": "partial",
   "theorems": [
    "C70_drawn",
    "C70_row_marked",
    "C70_scrollbar_no_panic",
    "C70_column_refuted",
    "C70_height_refuted",
    "C70_thumb_refuted",
    "C70_filter_refuted"
   ],
   "note": "The whole drawing is specified. Refuted: the scrollbar is a column after the area, the thumb place counts the top of the area twice and mixes raw and displayed indexes, the separator is drawn below an area of height 1."
  },
  {
   "property": "C71",
   "status": "proved",
   "theorems": [
    "C71_display",
    "C71_scrollbar_style",
    "C71_unfocused",
    "C71_password"
   ],
   "note": "Exact display of each row, scrollbar style, and independence of the display from the chars of a password."
  },
  {
   "property": "C72",
   "status": "proved",
   "theorems": [
    "C72_content_op",
    "C72_get_content",
    "C72_cut",
    "C72_replace",
    "C72_scroll",
    "C72_keys",
    "C72_area",
    "C72_change_area",
    "C72_focus",
    "C72_styles",
    "C72_new",
    "C72_default",
    "C72_step",
    "C72_histories"
   ],
   "note": "By induction on the histories, with areas of at least 1 column on the screen (a null width panics, C72_null_width)."
  },
  {
   "property": "C73",
   "status": "proved",
   "theorems": [
    "C73_click",
    "C73_is_key"
   ],
   "note": "For every execution of a source, on what the application receives."
  },
  {
   "property": "C74",
   "status": "proved",
   "theorems": [
    "C74_spacing",
    "C74_past"
   ],
   "note": "Times are natural numbers given by an arbitrary clock; recv_timeout doesn't return before its deadline."
  },
  {
   "property": "C75",
   "status": "proved",
   "theorems": [
    "C75_exotic",
    "C75_macro"
   ],
   "note": "Both forms of the macro."
  },
  {
   "property": "C76",
   "status": "partial",
   "theorems": [
    "C76_area_partial",
    "C76_view_partial",
    "C76_null_width_refuted",
    "C76_narrow_refuted",
    "C76_margins_refuted",
    "C76_view_margins_refuted"
   ],
   "note": "End to end, from the parsed markdown to the cells of the screen. False when the margins of a style need exactly the width of the area (C76_margins_refuted: the text is formatted for one column less, without margins, but written with them), for areas of 3 columns or less (C76_narrow_refuted) and null widths (C76_null_width_refuted). Proved for areas of at least 6 columns and sources having enough place (area_source)."
  },
  {
   "property": "C77",
   "status": "partial",
   "theorems": [
    "C77_printed_partial",
    "C77_sizes",
    "C77_code_refuted"
   ],
   "note": "End to end, for terminals of at least 5 columns and sources having enough place (area_source). False for code lines larger than the terminal (C77_code_refuted)."
  },
  {
   "property": "C78",
   "status": "proved",
   "theorems": [
    "C78_leftmost",
    "C78_matches",
    "C78_color",
    "C78_attribute",
    "C78_align",
    "C78_token",
    "C78_tokens"
   ],
   "note": "The semantics of the crate regex is the documented one, for the syntax used in the source; C78_matches and C78_leftmost relate it to a declarative definition. Trusted: that definition, and that no char is both a white space and a decimal digit."
  },
  {
   "property": "C79",
   "status": "proved",
   "theorems": [
    "C79_case",
    "C79_forms",
    "C79_grey_level",
    "C79_names",
    "C79_only"
   ],
   "note": "C79_forms and C79_only are the two inclusions. The three names darkblue, darkcyan and darkyellow of the code are read as blue, cyan and yellow (C51)."
  },
  {
   "property": "C80",
   "status": "proved",
   "theorems": [
    "C80_line",
    "C80_text",
    "C80_inline",
    "C80_text_view",
    "C80_mad_view",
    "C80_area",
    "C80_rect",
    "C80_crop_writer",
    "C80_colors",
    "C80_input",
    "C80_list",
    "C80_list_unselected"
   ],
   "note": "All outputs are followed by a model of the style of the terminal. The commands fill_bg, queue_fg and queue_bg, which are there to set a color, are out of the claim. The color of underlines is not followed. C80_colors: setting a color with a crop writer writes nothing and changes just this color."
  },
  {
   "property": "C81",
   "status": "proved",
   "theorems": [
    "C81_formatted",
    "C81_line",
    "C81_printed",
    "C81_area",
    "C81_inline",
    "C81_recolored",
    "C81_chars"
   ],
   "note": "Attributes are taken as part of the colors: they never change the layout. skin_no_style has another shape than the default skin (its first header is not centered), see C81_other_shape."
  },
  {
   "property": "C82",
   "status": "proved",
   "theorems": [
    "C82_printed",
    "C82_area",
    "C82_inline",
    "C82_filled",
    "C82_plain",
    "C82_no_style",
    "C82_ascii"
   ],
   "note": "The scrollbar keeps its own characters in a skin limited to ASCII, so a view having one is not in ASCII (C82_ascii_example). A word made of just an ellipsis is written in the style of the ellipsis."
  },
  {
   "property": "C83",
   "status": "proved",
   "theorems": [
    "C83_formatted",
    "C83_printed",
    "C83_each_line"
   ],
   "note": "Stated for the formatted text and for the printing; C83_cut shows that cutting a table or a block of code does change the result."
  },
  {
   "property": "C84",
   "status": "partial",
   "theorems": [
    "C84_words_partial",
    "C84_not_taller_partial",
    "C84_blanks_refuted",
    "C84_wide_refuted",
    "C84_item_refuted",
    "C84_text_partial",
    "C84_margins_refuted"
   ],
   "note": "Proved, for all pairs of widths, for chars of one column without successive blanks, for lines which all begin at the same column (paragraphs, headers, code, quotes, items in block mode) and without margins. Refuted otherwise: several blanks, wide chars, items whose first line only is indented, margins forgotten in narrow areas. C84_words_partial: also true with wide chars and first-line-only indentation when the words fit, the blanks are single and the text doesn't end with a blank."
  },
  {
   "property": "C85",
   "status": "partial",
   "theorems": [
    "C85_loaded",
    "C85_once_partial",
    "C85_exact",
    "C85_twice",
    "C85_once_refuted"
   ],
   "note": "One round trip settles every skin except those whose rich scrollbar is read as a simple one (C85_once_refuted: the bold of a thumb is kept by the first loading and lost by the second); two round trips settle every skin (C85_twice). C85_exact: exactly when one is enough."
  },
  {
   "property": "C86",
   "status": "proved",
   "theorems": [
    "C86_no_deadlock",
    "C86_drained",
    "C86_quit",
    "C86_dropped",
    "C86_unheard"
   ],
   "note": ""
  },
  {
   "property": "C87",
   "status": "partial",
   "theorems": [
    "C87_text",
    "C87_mad",
    "C87_back",
    "C87_list_partial",
    "C87_list_refuted"
   ],
   "note": "Proved for text views and mad views, and for lists without selection. Refuted for a list with a selection: it is scrolled back near the selection by each call."
  },
  {
   "property": "C88",
   "status": "partial",
   "theorems": [
    "C88_optimal_partial",
    "C88_pieces",
    "C88_reached",
    "C88_trailing_refuted"
   ],
   "note": "Any chars, styles, blanks, kinds and indentations. C88_optimal_partial: at least as few lines as any fitting layout, for texts not ending with a blank (needed: C88_trailing_refuted, a clean cut keeps a last blank on its own line). C88_reached: when words fit and blanks are single, some layout has exactly as many lines. C88_pieces: every text has words."
  },
  {
   "property": "C89",
   "status": "proved",
   "theorems": [
    "C89_tokens",
    "C89_words",
    "C89_compound_style",
    "C89_line_style",
    "C89_styled_char",
    "C89_unique",
    "C89_order",
    "C89_document",
    "C89_last",
    "C89_scrollbar"
   ],
   "note": "C89_words: the tokens of a text made of words (with groups like rgb(1, 2, 3)) separated by blanks. C89_tokens, C89_compound_style, C89_line_style, C89_styled_char: what any list of tokens means, and the error of a refused text. C89_document, C89_order, C89_last, C89_scrollbar: documents. The formats (JSON, TOML...) are external; a document is a tree of texts, sequences and maps."
  },
  {
   "property": "C90",
   "status": "proved",
   "theorems": [
    "C90_step",
    "C90_runs",
    "C90_unique",
    "C90_all",
    "C90_keys",
    "C90_field"
   ],
   "note": "Refinement: the content without selection is bisimilar to a two-string editor (S_Editor.v), for single operations, histories, keys and field methods. Selecting operations (make_selection, set_selection_tail, select_word_around) are outside: C07, C08, C09 tell about them."
  },
  {
   "property": "C91",
   "status": "partial",
   "theorems": [
    "C91_fixed",
    "C91_again_partial",
    "C91_wider_partial",
    "C91_again_refuted",
    "C91_wider_refuted"
   ],
   "note": "C91_fixed: the fixed points of the wrapping are exactly the lines which are all in place. Missing in C91_again_partial: chars without enough place, in front of which empty lines are added each time (C91_again_refuted). Missing in C91_wider_partial: margins which appear with the width (C91_wider_refuted)."
  },
  {
   "property": "C92",
   "status": "proved",
   "theorems": [
    "C92_text",
    "C92_marks",
    "C92_lines",
    "C92_readable",
    "C92_same_shape",
    "C92_no_style"
   ],
   "note": "Each char has exactly the look of a table written apart from the model, for the three skins with colors; all what is printed with them is readable; they have the same layout."
  },
  {
   "property": "C93",
   "status": "proved",
   "theorems": [
    "C93_step",
    "C93_narrow",
    "C93_histories",
    "C93_unselected"
   ],
   "note": "Deleting a wide selection is described by C09; it is the only operation left out here."
  },
  {
   "property": "C94",
   "status": "partial",
   "theorems": [
    "C94_text",
    "C94_view",
    "C94_field",
    "C94_rect",
    "C94_again",
    "C94_all",
    "C94_order",
    "C94_cells",
    "C94_list_partial",
    "C94_list_refuted",
    "C94_list_again_refuted"
   ],
   "note": "Texts, views, fields and rectangles are proved with the hypotheses of C76, C13 and C50. Lists are partial: nothing changes at their left, above and under, but they erase what is at the right of their area where they have no row (C94_list_refuted), and leave what was there in the unused columns of their area (C94_list_again_refuted). The terminal is large enough, has no control chars, and half of a wide char may be overwritten."
  },
  {
   "property": "C95",
   "status": "proved",
   "theorems": [
    "C95_lines",
    "C95_rows",
    "C95_area",
    "C95_view",
    "C95_field_rows",
    "C95_field"
   ],
   "note": "C95_lines: the formatted lines have just the visible chars of the source. C95_rows, C95_area: what is read in the area. C95_view: rows of a scrolled view. The lines are those of readable_line: quotes and code (marks repeated on each row, blanks) and tables (borders) are left to C76, which tells the cells themselves. C95_field_rows, C95_field: input fields."
  },
  {
   "property": "C96",
   "status": "proved",
   "theorems": [
    "C96_given",
    "C96_any",
    "C96_keys",
    "C96_text",
    "C96_read"
   ],
   "note": "C96_given: any list of events. C96_any: any time of any execution, any combiner. C96_keys, C96_text: when it is known which keys complete a combination (takes). C96_read: the drawn field reads as the typed text. The keys selecting with shift and the mouse are left out (C14, C93 tell what they do)."
  },
  {
   "property": "C97",
   "status": "proved",
   "theorems": [
    "C97_lines",
    "C97_rect",
    "C97_half",
    "C97_table",
    "C97_joined",
    "C97_rule"
   ],
   "note": "The hypotheses on the text are the ones of C69_printed (fitting_source). The ASCII borders have no arms, their chars are given by C97_lines."
  },
  {
   "property": "C98",
   "status": "proved",
   "theorems": [
    "C98_anywhere",
    "C98_pages",
    "C98_resized"
   ],
   "note": "C98_anywhere: all requests, all rows. C98_pages: page downs from the top, the whole source is read, nothing twice. C98_resized: another width restarts at the top. The columns read are the ones of the text: the last column of the area is left to the scrollbar when there is one. Tables, quotes and code are out of readable_line, as in C95. Resizing the height only is out of it (C40_mad_resize_refuted)."
  },
  {
   "property": "C99",
   "status": "proved",
   "theorems": [
    "C99_area",
    "C99_view"
   ],
   "note": "Spaces aside: whitespaces may be dropped at line breaks and are added to complete the cells. The cells of the table are paragraphs, what the parser gives (area_source). No special render (no_special). All the rows of a line of the table must be in the area for its reading, partially shown lines are not told of here (C97 and C76 tell what is drawn)."
  },
  {
   "property": "C100",
   "status": "proved",
   "theorems": [
    "C100_list",
    "C100_rows",
    "C100_history"
   ],
   "note": "C100_list: all what is read of a list, line by line; C100_rows: the cells of each column from top to bottom; C100_history: after any history. Chars are narrow: cells are measured in chars by the code (C47_wide_refuted). The right of the lines, between the last column and the right of the area, isn't written by the code except on the lines without row, so nothing is told about it (C94_list_again_refuted)."
  },
  {
   "property": "C101",
   "status": "proved",
   "theorems": [
    "C101_area",
    "C101_view"
   ],
   "note": "For texts drawn with the hypotheses of C76 (6 columns or more, margins not needing exactly the width, source lines having their place), all kinds of lines together: the unification of C95 (texts without quotes, code or tables) and C99 (one table). The blanks which are removed are the ones dropped by the wrapping (C24). Rows are read exactly, with their inner blanks, but for the number of spaces around them, which is only told for lines of code and tables."
  },
  {
   "property": "C102",
   "status": "proved",
   "theorems": [
    "C102_printed",
    "C102_screen"
   ],
   "note": "The terminal wraps at its last column as usual terminals do (the cursor waits at the end of a full row). Text without newline inside a line, as the parser gives. Same place needed in the width as for C77."
  },
  {
   "property": "C103",
   "status": "proved",
   "theorems": [
    "C103_prompt"
   ],
   "note": "Full property, for answers made of one paragraph. The making of inline templates by minimad isn't modelled: the three compounds they give are. C103_wide_example shows what the hypothesis on the width is needed for: the text of an answer is formatted for the whole width of the terminal, without the place taken by its key, so an answer which would be on a row without its key is cut anywhere by the terminal."
  },
  {
   "property": "C104",
   "status": "proved",
   "theorems": [
    "C104_anywhere",
    "C104_reach"
   ],
   "note": "Full property. C98 is about the lines which are read as they are, spaces aside, C104 about all kinds of lines, tables and code included."
  },
  {
   "property": "C105",
   "status": "proved",
   "theorems": [
    "C105_picture",
    "C105_press",
    "C105_drag",
    "C105_cut",
    "C105_double"
   ],
   "note": "C105_picture gives what is seen in each cell of the text; C105_press, C105_drag, C105_double and C105_cut what the mouse changes of it. For chars of other widths see C15_displayed_partial and its refutations. The two places of a drag must be on chars of the text; a drag may go anywhere between them."
  },
  {
   "property": "C106",
   "status": "proved",
   "theorems": [
    "C106_area",
    "C106_view"
   ],
   "note": "On the terminal of S_Paint, with its style being the default one before. The look of a style put over others is stated in S_Look (last colors, all attributes) apart from the code; the color of underlines is not in the pens. C106_ellipsis shows why the source must be without the char of the ellipsis."
  },
  {
   "property": "C107",
   "status": "proved",
   "theorems": [
    "C107_list",
    "C107_marked",
    "C107_one",
    "C107_next"
   ],
   "note": "C107_list gives the look of every part of a list; C107_marked says that a place of a line has the background of the selection exactly when its row is selected; C107_one that there is one marked line when the selected row is seen. The hypotheses are the ones of C100 and, for the last two, that the background of the selection is not one of the styles of the row and no style resets it.  C107_next: after any history, selecting the next or the previous row marks exactly the line of the closest row of the filter in this direction (area of at least 5 rows; if all the rows fit, the list must be at its top)."
  },
  {
   "property": "C108",
   "status": "proved",
   "theorems": [
    "C108_printed"
   ],
   "note": "C108_printed: `print_text` on the paper terminal of C102 (wrapping, of the width of the text), from the start of a row, with the default pen and blank cells from the cursor. The spec (S_PaperLook.v, `without_ends`) compares with a terminal holding the complete rows, whose looks are told by `looks_line` of S_Look.v (C106): each row is the same up to a column, from which the cells are the ones from before and the complete row only has blanks of the paragraph. The example uses a terminal whose blank cells have a background, so that these are told apart."
  },
  {
   "property": "C109",
   "status": "proved",
   "theorems": [
    "C109_session",
    "C109_screen"
   ],
   "note": "C109_session: on the paper terminal; each text is still seen at the end, in its rows, as told by `text_seen` (S_Session.v: `reads_line` of C101/C102 and `looks_line` of C106/C108, compared with the terminal before the whole sequence). C109_screen: on a screen which scrolls. The sequence is any list of printings, each with its skin and width."
  },
  {
   "property": "C110",
   "status": "proved",
   "theorems": [
    "C110_step",
    "C110_runs",
    "C110_unique",
    "C110_keys",
    "C110_mouse"
   ],
   "note": "C110_step: any operation on any content whose cursor is in its text, whatever the tail of its selection, does what the reference of S_Marked does, and panics exactly when it has no result; C110_runs: any history; C110_unique: the reference state tells the whole content. C110_keys: any sequence of keys with or without shift on a focused field; C110_mouse: any mouse event over a focused field. The reference of the deletion uses the vocabulary of C09 (row_left, rows_left)."
  },
  {
   "property": "C111",
   "status": "partial",
   "theorems": [
    "C111_two_partial",
    "C111_steady_partial",
    "C111_total",
    "C111_three_refuted"
   ],
   "note": "False with three columns (C111_three_refuted: from 30 to 31 columns the widths go from 8, 8, 10 to 9, 9, 9, because the rounding up of the gains of the first columns leaves less to cut for the last one). Proved for one or two columns (C111_two_partial) and for any number of columns whose cells have about the same width (C111_steady_partial). C111_total: the whole table is never narrower."
  },
  {
   "property": "C112",
   "status": "proved",
   "theorems": [
    "C112_reading",
    "C112_reach"
   ],
   "note": "C112_reading: the state after any groups of scrolling operations with a drawing after each; C112_reach: from any of these states, presses on up or on down and one more drawing show any source line not taller than the area. The hypotheses are those of C104 and C106 (usual skin, at least 6 columns, lines which fit, no ellipsis in the source); the resizings are out of this property (C40)."
  },
  {
   "property": "C113",
   "status": "proved",
   "theorems": [
    "C113_step",
    "C113_kept",
    "C113_runs",
    "C113_lines"
   ],
   "note": "C113_step: one operation; C113_kept: the exact numbers when the operation is not a deletion, a clearing or a replacement of the text; C113_runs and C113_lines: any history which does not panic (C01 and C110 tell when)."
  },
  {
   "property": "C114",
   "status": "proved",
   "theorems": [
    "C114_editing",
    "C114_keys"
   ],
   "note": "C114_editing: any events, the bound B on lines and scroll only says that rows stay within u16. C114_keys: the same with the content told by the reference of C110. Chars of more than one column are out of these statements: what is drawn of them is in C71 and C94."
  },
  {
   "property": "C115",
   "status": "proved",
   "theorems": [
    "C115_resized",
    "C115_place",
    "C115_reach"
   ],
   "note": "C115_resized: the reference, the cells and the looks after any groups of operations. C115_place: where the place can be, the overscroll of C40_mad_resize_refuted being repaired by any scroll downwards. C115_reach: any line can still be reached. good_area is the hypothesis of C112 with room for the rows in u16."
  },
  {
   "property": "C116",
   "status": "proved",
   "theorems": [
    "C116_working",
    "C116_content"
   ],
   "note": "C116_working: any groups of calls; n is any number of lines which the text does not pass, for which the areas have room. C116_content: the content alone, for any history, also with wide chars. The keys given to apply_key_combination count as possible line feeds, since they may be new-line keys."
  },
  {
   "property": "C117",
   "status": "proved",
   "theorems": [
    "C117_alone",
    "C117_settled",
    "C117_screen"
   ],
   "note": "C117_alone: non-interference for all interleavings. C117_settled: in separate cells, drawing a widget again changes nothing. C117_screen: with the hypotheses of C115, C116, C118 and C50, each widget is seen as it is. The cells of a list are the ones of C118, which may be out of its area (C94_list_refuted)."
  },
  {
   "property": "C118",
   "status": "proved",
   "theorems": [
    "C118_list",
    "C118_again",
    "C118_area"
   ],
   "note": "With the hypotheses of C94_list_partial, which it makes precise: the cells are told exactly instead of by a half plane. The terminal is large enough."
  },
  {
   "property": "C119",
   "status": "proved",
   "theorems": [
    "C119_received",
    "C119_screen",
    "C119_typed"
   ],
   "note": "Composition of C55, C96, C114 and C116 for all executions. The chars take one column, the area has room for the lines which may be typed, and the terminal is large enough."
  },
  {
   "property": "C120",
   "status": "proved",
   "theorems": [
    "C120_dialog"
   ],
   "note": "The echo of what is typed is the one of a terminal in line mode: a line is shown where the cursor is, the enter key goes to the next row. It isn't part of the code: `dialog` places it before the message which answers the line. The lines shown must be narrower than the terminal, as for the answers in C103. Escaped chars of `{:?}` are those of the quantified `debug`."
  },
  {
   "property": "C121",
   "status": "proved",
   "theorems": [
    "C121_form",
    "C121_untouched",
    "C121_typed",
    "C121_first"
   ],
   "note": "The application (giving the events, taking the focus from the other fields) is stated in `S_Form`: it isn't part of the code, which has no form. `C121_both_example` shows it's needed: pressing in a second field leaves the focus to the first one too, and both take the keys."
  },
  {
   "property": "C122",
   "status": "proved",
   "theorems": [
    "C122_screen",
    "C122_source"
   ],
   "note": "The cells shown are those of the text; the cell of the scrollbar, when there is one, is told by C105 and C71. As in C121 the application isn't part of the code."
  },
  {
   "property": "C123",
   "status": "proved",
   "theorems": [
    "C123_top",
    "C123_screen",
    "C123_last"
   ],
   "note": "C123_top: each cell is what its topmost layer draws on any terminal, or unchanged; C123_screen: a widget is seen as it is as long as those drawn after it are out of its cells, whatever was drawn before; C123_last: the widget drawn last is seen entirely."
  },
  {
   "property": "C124",
   "status": "proved",
   "theorems": [
    "C124_area",
    "C124_screen",
    "C124_reach",
    "C124_leave",
    "C124_ends"
   ],
   "note": "C124_area: the column; C124_screen: the screen while the application waits; C124_reach: any line can be brought on the screen; C124_leave, C124_ends: how it ends. The entering and leaving of the alternate screen and of the raw mode are not modelled, the screen being taken as empty when it is entered."
  },
  {
   "property": "C125",
   "status": "partial",
   "theorems": [
    "C125_event",
    "C125_run",
    "C125_keys",
    "C125_texts",
    "C125_tabs",
    "C125_label_refuted"
   ],
   "note": "C125_event: each event keeps the invariant and moves the focus as told; C125_run: all the sequences of events, from the start; C125_keys, C125_texts: what is changed; C125_tabs: the tab key. That the area of the view after a resize is the one of the event is in the lemma resize_sound, not in these theorems, which are relative to the area of the view. C125_label_refuted: the area of the label of the comments goes 6 rows below the terminal. The drawing and the real clipboard are not modelled: the answers of the clipboard are quantified."
  }
 ]
}