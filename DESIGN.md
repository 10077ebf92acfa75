# Formal model of termimad 0.31.3

The source under study is `/repo/src` (read as text, never built or run).
The model is written in Rocq/Coq 8.16.1, in `rocq/theories`.
This file is made by `tools/mkdesign.py` from `tools/design_head.md`, `tools/plan.json`, `MANIFEST.json` and the `P_*.v` files.

## File layout

* `Base.v`: characters, the Unicode oracle, the panic monad. `L_Base.v`: lemmas on lists. `Demo.v`: an oracle for the examples.
* `M_*.v`: the model. Only definitions, each one with the file and lines it comes from.
* `S_*.v`: small specifications, which don't use the helpers of the model.
* `L_*.v`: lemmas and proofs.
* `P_*.v`: the property theorems, `Print Assumptions` for each, concrete examples (`Example`: tests of the hypotheses, not proofs).
* `T_Repo.v`: the unit tests of the repository computed on the model (tests of its faithfulness; those of `src/parse` and `src/serde` are in `P_Parse.v` and `P_Serde.v`).
* `seeded/LOG.jsonl`: the wrong programs against which the theorems were tried, with the theorems which fail.
* `tools/`: the scripts making `MANIFEST.json` and this file, and running the mutations.

## Modelling choices (common to all files)

* A Rust `char` is a Unicode scalar value, modelled as an `N`. A `String` is a list of chars.
  Byte offsets are modelled only where the code slices by bytes, through `len_utf8`.
* `UnicodeWidthChar::width`, `UnicodeWidthStr::width`, `char::is_whitespace` and
  `char::is_alphanumeric` are functions of other crates: they are fields of a record
  (`unicode`) over which all the theorems are quantified. The width of a string is a field
  distinct from the width of a char; a theorem which needs "the width of a string is the sum of
  the widths of its chars" (true of unicode-width up to 0.1.12) has it as a visible
  hypothesis (`additive`).
* `usize` is `nat` (or `N` in the views). Additions are unbounded: overflow over 2^64 isn't modelled, but for the event count and the
  `usize::MAX` special values. Subtractions which could underflow are checked: an underflow is the outcome `Panic`, as in a build with
  overflow checks (dev profile). `u16` truncations (`as u16`), `u16` overflows and `i32` bounds are modelled.
* Index out of bounds, `unwrap`/`expect` of `None`, slicing out of range and division by zero are the
  outcome `Panic`.
* A `&mut self` method is a function returning the new state. Mutable histories are lists of operations.
  A loop without evident structural measure has fuel, running out of fuel being a distinct outcome that proofs exclude.
* Threads are labelled transition systems: `step` is a function of the state and of a label naming the process and its inputs (event, time),
  an execution is a list of labels, and theorems are for every execution from the initial state, that is for every interleaving.
  Channels are queues (crossbeam, unbounded or bounded as in the code); blocking is the absence of step.
* I/O errors of the writers aren't modelled: writers always succeed. The written output is a list of
  commands (moves, printed texts with their style...). Failures of the reading are modelled in questions.
* The terminal isn't in the repository, so it isn't modelled but specified: "columns" are sums of the widths given by the oracle, `S_Paint` says what each command
  does to a grid of cells with a cursor and a style, `S_Read` what can be read there, `S_Paper` how a terminal of a given size wraps and scrolls.

## Trusted base

* Coq's kernel (and its `vm_compute` for the concrete examples and refutations).
* No axiom: `Print Assumptions` says "Closed under the global context" for each of the theorems of the manifest.
  `coqchk` also lists, as being in the context, the axioms of `Coq.ssr.ssrunder` (`Under_rel.*`), a file of the standard library loaded by
  `lia`'s dependencies; no theorem uses them.
* The correspondence between the Rust source and the model, documented in the comments of each definition.
* The specifications of what the commands do in a terminal: grid of cells (`S_Paint`), wrap and scroll (`S_Paper`), cursor and columns (`S_Input`, `S_Render`, `S_List`), and the style in use (`S_Pen`, after crossterm's
  `PrintStyledContent`: colors then attributes before the text; after it, everything is reset if there are attributes, or else the colors which were set).

## What is modelled

| Source | Model | Simplifications |
|---|---|---|
| `views/pos.rs`, `views/input_field_content.rs` | `M_Content` | all functions; positions and texts as lists of lines |
| `views/input_field.rs` | `M_Input` | all functions; `display` without flush |
| `views/text_view.rs`, `views/mad_view.rs`, `area.rs` | `M_View` | the rendering of a line is a parameter (instantiated with `M_Render`); f64 pages exactly, in `M_F64`; the size of the terminal is a parameter |
| `views/list_view.rs` | `M_List` | closures are functions |
| `views/progress.rs` | `M_Progress` | f32 exactly |
| `compound_style.rs`, `styled_char.rs`, `line_style.rs`, `color.rs`, `scrollbar_style.rs`, `table_border_chars.rs`, styles of `skin.rs` | `M_Style` | the blend of two colors (coolor) is a parameter |
| `fit/str_fit.rs`, `fit/crop_writer.rs`, `fit/filling.rs`, `spacing.rs` | `M_Fit` | |
| `fit/tbl_fit.rs` | `M_TblFit` | |
| `composite.rs`, `tokens.rs`, `fit/wrap.rs` | `M_Wrap` | |
| `fit/composite_fit.rs` | `M_Fitter` | |
| `line.rs`, `tbl.rs`, `code.rs`, `text.rs` | `M_Text` | from the parsed lines |
| writing of lines and composites in `skin.rs`, `inline.rs`, `displayable_line.rs` | `M_Render` | the special chars are a function |
| `area_text`, `write_in_area_on`, `term_text`, `print_text` of `skin.rs`, `MadView::write_on`, `terminal_size` | `M_Area` | the text is already parsed; the size told by crossterm is a parameter |
| `rect.rs` | `M_Rect` | |
| `parse/*.rs` | `M_Parse`, `M_Regex` | one matcher for each regular expression, proved equal to the patterns of the source under a backtracking semantics (C78); classes of chars of regex as a parameter |
| `serde/*.rs` | `M_Serde` | documents as trees |
| `events/event_source.rs`, `escape_sequence.rs`, `timed_event.rs` | `M_Event` | the combiner of crokey is a quantified state machine |
| `events/tick_beam.rs` | `M_Tick` | time is a natural number |
| `examples/scrollable`, `examples/inputs` | `M_Scrollable`, `M_Inputs` | the event loops over the views; entering and leaving the terminal's modes left out, the answers of the clipboard quantified, the drawing of `inputs` left out |
| `ask.rs` | `M_Ask`, `M_Prompt` | printed texts as a trace, then rendered; minimad's templates given by their compounds, the debug form of a rejected input quantified |

Not modelled: minimad (parsing of Markdown, templates), crossterm (raw mode, encoding of the commands), crokey's combiner and key names,
coolor's color conversions, the regex engine (its documented semantics is in `M_Regex`), the formats of serde, the clipboard, the scheduling of the OS, memory.
The one line wrappers of `lib.rs` and `skin.rs` which only print or flush (`print_inline`, `write_inline`...), and the inline macros (templates of minimad), aren't modelled.

## Properties: plan and result

| Property | Title | Model | How it is proved | Result |
|---|---|---|---|---|
| C01 | Editing never corrupts the input field content | `InputFieldContent` as a record, every method, `Panic` for indexing | invariant preserved by each operation, induction on histories | partial: False with set_selection_tail, which clamps the tail with the line of the cursor (refuted). C01_exact and C01_histories_exact: a history panics exactly when it deletes a selection whose tail is after the end of the line of the cursor, which only happens after a set_selection_tail. Proved for all histories without set_selection_tail, and for all those in which the given tails are positions of the text (C01_tails_in_text). |
| C02 | Text set in an input field is the text read back | `from`, `insert_str`, `is_str` with the `Chars` iterator, `Display` | induction on the string; iterator shown to enumerate the flat text | proved: Full: from, Display, iteration, is_str, set_str, is_empty, push_char. |
| C03 | Typing inserts at the cursor | same | refinement to a flat text with a gap (`before`, `after`) | proved: Full: refinement to text and cursor offset. |
| C04 | Backspace and Delete remove exactly one neighbour character | same | refinement to the gap text; the case of an empty last line is expected false (refutation) | partial: Delete left and type-then-delete full. Delete below is false at the end of a text whose last line is empty: the previous line feed is removed (refuted); exact behaviour proved in all cases. |
| C05 | Left and right cursor moves walk the text one character at a time | same | refinement to the gap text | proved: Full. |
| C06 | Vertical cursor moves keep the column | columns as sums of oracle widths | characterisation of the target index as a least index | proved: Full, for any width oracle. |
| C07 | Word moves and word deletions agree | word loops with structural measure | induction on the run | proved: Full: exact targets of moves and deletions. |
| C08 | The selected string is the inclusive slice of the text | `Range`, `Chars` on a selection | slice of the flat text by offsets | proved: Full. |
| C09 | Deleting or cutting the selection removes exactly the selected text | `del_selection` | expected false for multi-line selections: refutation; in-line case and "nothing outside is lost" proved | partial: False for multi-line selections and for in-line selections reaching the end of a non last line (refuted). Proved: exactness for in-line and whole line selections, no panic and no loss of non line feed chars outside of the selection in all cases. C09_row, C09_rows and C09_cases: exactly which lines are left by every wide selection, and where the cursor is: whole lines are removed unless there is just one of them, the char at the end is kept when the selection goes over several lines. |
| C10 | Moving a line permutes lines and carries the cursor | `swap_lines`... | permutation; cursor column expected false: refutation | partial: Lines part full. 'Cursor stays on the same char' is false when the neighbour is shorter (refuted); exact cursor given. |
| C11 | Selecting a word selects the maximal word around the cursor | `select_word_around` | maximal run characterisation | proved: Full. |
| C12 | The cursor of a focused input field stays visible | `fix_scroll` and the key paths of `InputField` | case analysis; expected false (a row scroll goes the wrong way): refutation plus the true cases | partial: fix_scroll is fully specified and the cursor is drawn where it should be when the width is at least 4 and the row isn't the one just below the window. Refuted: moving down to the row just below the window doesn't scroll, Backspace and Delete keys don't scroll, widths under 4, password mode with wide chars. |
| C13 | An input field draws exactly its area | `display_on` as a function to rows of printed chars | induction on the loop over the chars of a row | partial: Rows, no panic and cursor position in the area. Refuted: the returned position is one column left of the drawn cursor when there's a left ellipsis; an area of 1 column with a scrollbar overflows; tabs are written as is. |
| C14 | Input field events only act when they should | event dispatch of `InputField` | case analysis | partial: Exact tables of the keys and mouse events; false on a key leaves all but the selection; unfocused fields ignore keys; clicks outside do nothing; new-line keys insert a line break; single-line fields stay so. Refuted: apply_keycode_event isn't guarded by the focus, apply_event ignores the new-line keys, the Char('\n') key adds a line. |
| C15 | A click puts the cursor on the clicked character | click handling | least index characterisation | partial: Exact position of a click for all widths, always in the text; the drawn char at this place when no wide char is cut. Refuted: second column of a wide char, wide char cut by the scroll. |
| C16 | Fitting a string takes the longest fitting prefix | `StrFit` with byte counts | induction | proved: Full. Made columns: for strings without backspace (a backspace counts -1 in the code). |
| C17 | A crop writer never writes more columns than allowed | `CropWriter` operations as a small language | invariant on histories | partial: Proved for all histories of calls within the documented restrictions (gentle strings and fillings of width 1), without styled tab char; exact remaining count without backspaces. Refuted: queue_char sends a tab as is; backspaces aren't given back. |
| C18 | A crop writer writes everything that fits | same | expected false for chars (strict comparison): refutation; proved for strings | partial: Strings, gentle strings, repetitions and fills: full. Refuted for chars (strict comparison drops a char filling exactly the remaining columns) and null-width strings at the limit. |
| C19 | Filling writes exactly the requested number of characters | chunk loop | induction on the length | proved: Full. |
| C20 | Spacing pads exactly and fairly | `Spacing` | arithmetic | proved: Full. |
| C21 | Balanced table widths always fit | `TblFit` | invariant of the two reduction loops, sorting restores the order | proved: Full functional specification of the balancing of columns, from any sequence of seen cells. |
| C22 | Table width reduction is fair and reported | same | expected false: refutations | partial: The reduction isn't proportional in the code's second step (equally wide columns get 3 and 100): refuted. Proved: averages are kept when possible, cuts go to the widest first, and the flag is exact but for one column tables. |
| C23 | Wrapped lines fit the width | tokens, `hard_wrap_composite` | invariant of the accumulation loop | partial: Proved when no char is wider than what the lines after the first one can hold (always the case for paragraphs, headers and code with chars at most 2 wide). Refuted otherwise: wide char in a quote, list item of depth 1, at width 3. C23_overflow: whatever the chars, a line is too wide only when made of one char which can't fit; C23_exact tells exactly when all lines fit. |
| C24 | Wrapping loses no text and no style | same | sequence of non-blank styled chars preserved; gluing expected: refutation | partial: Only whitespaces are dropped, styles and order kept: full. No gluing: proved with single blanks of width 1 and visible chars; refuted with several blanks (aaaa, 3 spaces, b at width 5 gives aaaab). |
| C25 | Wrapping keeps line kinds, indentation and cached lengths right | same | invariant | partial: Kinds, spacing and cached lengths: full. No empty line: proved when all chars fit beside the bullet and compounds aren't empty; refuted otherwise (line with only the bullet). |
| C26 | Wrapping fails only on widths below 3 and never panics | same, margins | expected false (subtraction underflow): refutation; exact condition | partial: Exact error condition and absence of panic when bullets fit between the margins. C26_exact tells exactly which lines panic: those too large whose bullet does not fit between the margins. The if and only if of the error is refuted (no line to wrap: no error), and a list item of depth 2 at width 3 panics (refuted). |
| C27 | Fitting a composite makes it fit | `Fitter` | width accounting of cuts; expected false: refutations; positive theorem when no panic | partial: Partial: fits when there is place for an ellipsis after the bullet or quote mark. No panic for tokens with something in their middle and (for center/right) without empty compounds; for the alignments, C27_aligned_exact tells exactly which composites panic. Refuted in general: two wide chars panic, an empty compound panics when aligned right, prefixes are not counted. |
| C28 | Fitting only removes what is needed, on the right side | same | prefix/suffix lemmas | proved: Proved, for all alignments and for the internal ellisions. Fitting again is the identity. |
| C29 | fill_width gives exactly the width | `fill_width` and composite rendering | from C27 and C35 | partial: C29_exact gives the number of columns for every composite, width and alignment. False because of the margins, which are added to the width (C29_margin_refuted), and of bullets and quote marks when there's no place for them (C29_mark_refuted); the call can panic as told in C27. |
| C30 | Tables are rectangular and fit | `Table::fix_columns` | invariant on rows | partial: Cells which are list items can be wider than their column (C30_cells_fit_refuted). C30_printed_partial: every line of a laid out table prints exactly on the width. |
| C31 | Table layout keeps cell texts in their columns | same | content of columns | proved: Proved, with the text equal but for whitespaces removed by wrapping. |
| C32 | Laying out tables never panics | same | expected false: refutation; proved for enough width | partial: Partial: no panic when the width allows all the columns, or for full rows or short cells. C32_exact and C32_text_exact tell exactly which tables and texts panic (cells whose bullet takes at most 3 columns). Refuted in general: when columns are removed, a row shorter than the kept columns with a cell to wrap panics. |
| C33 | Table rules get the right joint position | same | case analysis | proved: Proved for texts whose rules have the Other position, which is the case of all texts to format. |
| C34 | Code blocks are justified to a common width | `justify_blocks` | block decomposition; the width part expected false: refutation | partial: Justification proved. Refuted: wrapped lines of code keep the spacing of the block and are printed wider than the width (C34_wrapped_refuted). C34_block and C34_block_exact: in the formatted text, all the lines of a block, wrapped or not, take the columns of the biggest source line with the margins, or the asked width if it's greater (C83 lets it be used for a block inside a text). |
| C35 | Rendered lines take exactly the expected columns | `write_fmt_composite`, `write_fmt_line` | column sums | partial: All that is written is specified char by char (C35_drawn), and C35_panics tells exactly which lines cannot be written (a header of level 0; the continuation of a list item of depth 255 with the block indentation, where depth + 1 overflows). The width is exact when the content fits in its spacing, skin chars take one column, special chars have the width of what they replace and rules have columns; otherwise refuted: a rule without column takes 2 columns, replacements, spacings smaller than the content. |
| C36 | Style composition follows the documented precedence | styles as records | algebra | partial: Composition, precedence and associativity full; the empty style isn't a left unit for a style having an underline color (refuted). C36_setters: each setter of a compound style changes what it's made for and nothing else. |
| C37 | Blending a style blends its foreground and its background | blend oracle | expected false: refutation | partial: False: blend_with blends twice the foreground and never the background (refuted); actual behaviour proved, as well as the documented 'weight 0 changes nothing'. |
| C38 | A styled char is always drawn with its current style | cached rendering | invariant on histories; false for blend: refutation | partial: Proved for all histories of setters; false with blend_with, which leaves the cached styled char unchanged (refuted). |
| C39 | The scrollbar thumb is inside its track and follows the scroll | `compute_scrollbar` | arithmetic; bottom row expected false: refutation with exact bounds | partial: Exact conditions under which the thumb touches the bottom; the claims on the last row are false for the faithful model (see the refuted theorems): the last row may be just below the area, one-row areas, small areas, tall contents. |
| C40 | Views never scroll past their content | `TextView`, `MadView` scrolls | invariant on histories | partial: Functional specification of every scrolling call. False for i32::MIN (negation overflow), a null height (wrong boolean) and a MadView resized taller. The f64 numbers of pages are modelled exactly, with NaN and infinities. C40_floor_ceil: the roundings used are the floor and the ceiling. |
| C41 | Paging goes through the whole content | same | induction on pages | proved: Page downs from the top cover all lines and reach the end; page up and page down undo each other. |
| C42 | A scrollbar is displayed exactly when there's something to scroll | same with u16 truncation | refutation above 65535, proved below | partial: Text view and input field; false above 65535 lines (truncation to u16). C42_exact and C42_field_exact: for any number of lines, the scrollbar is there exactly when this number, as a u16, is over the height; C42_panic_example shows a scrolled text of 131333 lines for which it panics. |
| C43 | List view counters and selection are always consistent | `ListView` | invariant on histories | proved: Proved for all histories. (A filter may leave a hidden row selected: example.) |
| C44 | Selecting next or previous walks the displayed rows cyclically | same | cyclic search | proved: Proved for all lists, filters, selections and directions; the scroll is then the one of make_selection_visible (C45). |
| C45 | The selected row of a list view is kept visible without panic | same | expected false: refutations | partial: Exact panic condition, exact scrolls, invariant scroll <= rows, visibility when the area has 5 lines or more. Refuted: subtraction underflow when the last visible row is selected at the top, scrolling down a short list, i32::MIN, heights 3 and 4, list just fitting scrolled by one, empty area, bottom of a filtered list. |
| C46 | List view columns respect their bounds and the area | `update_dimensions` | arithmetic, invariants | partial: Proved for bounds in order and below 2^31. Refuted when max < min (panic) and when max is usize::MAX (width usize::MAX). C46_exact says exactly when it panics, for bounds which are i32. |
| C47 | List view lines are aligned | `write_on` | column sums | partial: Proved in chars, position by position, for all columns, titles and cells; in columns only for chars of width 1 (cells are measured in chars: refuted with wide chars). |
| C48 | Sorting a list view keeps order and selection | `add_row` with insertion sort standing for the stable sort | sortedness; selection identity expected false | partial: Sorted, stable, inserted in place, for all histories with a total order. Refuted: the selection isn't moved with its row; setting an order doesn't sort the rows already present. |
| C49 | Padding an area stays inside it | `Area` | arithmetic | partial: Areas whose right and bottom fit in u16. A too big padding panics (documented in the code), and contains overflows at the last column of u16. C49_contains_exact, C49_edges_exact, C49_pad_exact and C49_max_width_exact say exactly when each function panics, for all areas. |
| C50 | Drawing a rectangle touches exactly its cells | `Rect::draw` as the list of written cells | cell sets | proved: The area must have a right and a bottom below 65536 (otherwise Area::right and bottom can not be computed; C50_panics tells exactly when drawing panics). The rectangles smaller than 2x2, out of the statement, are shown in C50_narrow and C50_flat to be drawn out of their area. |
| C51 | Printed colors are parsed back | printers and parsers, matchers of the regexes | round trips; refutations | partial: False for the 7 colors whose printed name is read as another color or as nothing (C51_read_back_refuted: DarkBlue, DarkCyan, DarkYellow, DarkGrey, Black, White, Reset). C51_exact gives what every color is read back as, C51_read_back_partial proves it is the same color exactly for the others. The regexes are modelled as functions on chars; the Unicode classes of the regex crate are a parameter with its ASCII part known. C51_injective: distinct colors have distinct texts. |
| C52 | Printed compound styles are parsed back | printers and parsers, matchers of the regexes | round trips; refutations | partial: False for the colors of C51, the underline color, and the attributes which aren't printed (Reset, SlowBlink, RapidBlink, the No ones): C52_exact gives the style which is read back for every style, C52_read_back_partial characterises the unchanged ones. C52_write_style_tokens_refuted: write_style_tokens glues its tokens. C52_attribute_texts: distinct printed attributes have distinct texts. |
| C53 | Printed line styles and styled chars are parsed back | printers and parsers, matchers of the regexes | round trips; refutations | partial: Exact results for every style and char (C53_line_exact, C53_char_exact) and characterisation of what is read back unchanged; false for margins over 65535, and for chars which are spaces, parentheses or digits. |
| C54 | A serialized skin deserializes to the same skin | trees of texts, sequences and maps; every (de)serializing function | round trip computed for every skin; refutations | partial: serde and its formats are not modelled: documents are trees of texts, sequences and maps, with entries in any order. C54_exact gives the skin read back for every skin, C54_read_back_partial tells exactly when it's the same, C54_defaults proves it for the default skins. The indentation mode, the special chars, the unnamed table borders, and part of the simple scrollbars are lost. |
| C55 | The event source loses, duplicates and reorders nothing | labelled transition system of the reading thread, the application and the channels; combiner quantified | invariant by induction on executions; relational cut of the stream | partial: Proved for every execution of the reading thread and of the application: what is delivered is exactly the cut of the stream (C55_cut, C55_exact), in order (C55_received), once when nothing is lost (C55_once_partial). C55_defaults says what the default options deliver: everything but the mouse moves and the keys which complete no combination. False in one case: an escape sequence is dropped when 10 are waiting unreceived (C55_full_refuted); C55_losses shows it's the only one as long as the source isn't dropped. The combiner of crokey is an arbitrary state machine. |
| C56 | Escape sequences are recognised exactly | same | from the cut of C55 | partial: C56_form: all delivered sequences have the form. C56_runs_partial: a run of that form is delivered as one sequence when it doesn't begin inside an unfinished one; false otherwise (C56_runs_refuted). |
| C57 | Double clicks are reported only for close clicks at the same place | same, times in the labels | invariant on executions | proved: For every execution, whatever the times given by the clock. |
| C58 | The event source waits for the application | same, quit channel | invariant on executions, refutations for early unblocks | partial: One event per unblock when unblock is called once per received event (C58_one_by_one_partial), and the exact credit whatever the calls (C58_credit). False when unblock is called in advance (C58_early_unblock_refuted, C58_early_quit_refuted). Also: the count, the panic of unblock after the end of the thread, no deadlock and no endless loop of the thread. |
| C59 | A tick beam sends its ticks and no more | labelled transition system of the ticker, the threads of the beams, the channels, the clock | invariant on executions; explicit schedule for the liveness part | proved: For every interleaving of the calls, of the threads, of time and of the receiver. C59_exactly: the beam has sent its count when it ends, and can reach its end from every reachable state by its own steps and time only. C59_missions states it for the three constructors: one tick, several ticks, ticks without end. |
| C60 | Stopping a beam stops it, and only it | same | invariant, then induction on the steps after the stop | proved: At most one tick after stop_beam or stop_all_beams returned (one is reachable: C60_one_more); the thread ends in at most 3 steps which never wait; the others are unchanged; no call blocks in any reachable state. |
| C61 | A question returns one of its answers | loop on a stream of chars and failures, with fuel | exact characterisation by induction, both ways | proved: C61_answer: exactly when a key is returned, what has been printed and what remains of the input; C61_error for failures of the reading. The typed text is the line without its trailing whitespace. Rendering of the prompt not included (trace of the texts). |
| C62 | Asking terminates when the input ends | same | refutation: no fuel is enough; exact condition | partial: False without default: at the end of the input the question is asked forever (C62_eof_refuted). C62_iff characterises the inputs for which it returns, C62_ends_partial bounds the number of reads. |
| C63 | A progress bar takes at most its width | binary32 numbers as multiples of 2^-149, the exact IEEE operations | bounds on roundings, monotony of each rounded operation | partial: Exact model of the binary32 operations used. The width and completeness hold for the widths which are f32 numbers, among which all those up to 2^24; the width is rounded to a f32, so that they are false for other ones (C63_complete_refuted, C63_too_long_refuted). Monotonicity, no panic and emptiness at 0 hold for all widths; C63_precise bounds the error. C63_padded: formatted with a width in the braces (Formatter::pad is modelled), it takes exactly it. |
| C64 | Skin-wide color setters recolor everything but code | setters of the skin | case analysis on kinds and flags | proved: Full. |
| C65 | Margins never eat the content | `margins_in` | arithmetic | proved: Full. |
| C66 | A text view draws exactly its area | drawing of text views as commands, rendering of a line quantified | induction on rows | partial: Rows drawn by a text view, relative to the rendering of a line. Panics for a null width with a scrollbar. C66_exact says exactly when drawing panics. |
| C67 | Wrapping cuts between words and fills lines greedily | tokens and wrapping | invariants of the tokenizer and of the wrapping loop | proved: Full. |
| C68 | Table cells follow the alignment of the last rule above them | table layout | induction on rows | proved: Proved. |
| C69 | Formatting a text keeps its lines and their text | `FmtText::from_text` | composition of the layout steps | partial: Line conversion, prose kept, lengths, printed width of every line of a text. Missing in C69_printed_partial: sources with code lines larger than the width, lead and margins larger than the width. C69_overflow: whatever the source, a line out of the tables is too wide only when made of one char. |
| C70 | A list view is drawn in its area | drawing of list views | induction on rows | partial: The whole drawing is specified. Refuted: the scrollbar is a column after the area, the thumb place counts the top of the area twice and mixes raw and displayed indexes, the separator is drawn below an area of height 1. |
| C71 | An input field shows its text from its scroll | drawing of input fields | row by row specification | proved: Exact display of each row, scrollbar style, and independence of the display from the chars of a password. |
| C72 | Input field histories are safe | all the operations of `InputField` | invariant on histories | proved: By induction on the histories, with areas of at least 1 column on the screen (a null width panics, C72_null_width). |
| C73 | Clicks and keys of the received events | `TimedEvent` methods over the executions of C55 | from C57 | proved: For every execution of a source, on what the application receives. |
| C74 | The ticks of a beam are spaced by its period | as C59 | invariant on executions | proved: Times are natural numbers given by an arbitrary clock; recv_timeout doesn't return before its deadline. |
| C75 | The ask! macro executes the block of the answer | `ask!` as a function | from C61 | proved: Both forms of the macro. |
| C76 | A text drawn in an area covers exactly its cells | M_Area over M_Text, M_View and M_Render | composition of C32, C69, C35 and C66; cells covered by tiled rows | partial: End to end, from the parsed markdown to the cells of the screen. False when the margins of a style need exactly the width of the area (C76_margins_refuted: the text is formatted for one column less, without margins, but written with them), for areas of 3 columns or less (C76_narrow_refuted) and null widths (C76_null_width_refuted). Proved for areas of at least 6 columns and sources having enough place (area_source). |
| C77 | A printed text is never larger than the terminal | M_Area over M_Text and M_Render | composition of C32, C69 and C35 | partial: End to end, for terminals of at least 5 columns and sources having enough place (area_source). False for code lines larger than the terminal (C77_code_refuted). |
| C78 | Texts of styles are read with the regular expressions of the source | regular expressions parsed from the patterns of the source, backtracking semantics | soundness and completeness of the semantics for a declarative definition; equality with the matchers of M_Parse | proved: The semantics of the crate regex is the documented one, for the syntax used in the source; C78_matches and C78_leftmost relate it to a declarative definition. Trusted: that definition, and that no char is both a white space and a decimal digit. |
| C79 | The forms of colors which are accepted | printers and parsers, matchers of the regexes | inductive definition of the accepted texts; both inclusions | proved: C79_forms and C79_only are the two inclusions. The three names darkblue, darkcyan and darkyellow of the code are read as blue, cyan and yellow (C51). |
| C80 | No color is left behind | M_Style, M_Render, M_View, M_Area, M_Rect, M_Fit, M_Input, M_List | `S_Pen` gives the effect of the commands on the style of the terminal (`PrintStyledContent` of crossterm sets colors and attributes before the text and resets what it set after); the commands of each drawing function are then followed, by induction on lines, cells and rows. The separators of the selected row of a list are written over a `SetBackgroundColor` which is cleared by the next cell, which has a background. | proved: All outputs are followed by a model of the style of the terminal. The commands fill_bg, queue_fg and queue_bg, which are there to set a color, are out of the claim. The color of underlines is not followed. C80_colors: setting a color with a crop writer writes nothing and changes just this color. |
| C81 | Colors never change the layout | M_Style, M_Fit, M_Wrap, M_TblFit, M_Text, M_Render, M_View, M_Area | `S_Layout` says when two skins have the same shape and what the layout of commands is (styles removed); all the functions are followed for both skins at once. | proved: Attributes are taken as part of the colors: they never change the layout. skin_no_style has another shape than the default skin (its first header is not centered), see C81_other_shape. |
| C82 | What is written comes from the text or from the skin | M_Text, M_Wrap, M_TblFit, M_Render, M_Fitter, M_View, M_Area, M_Style | `S_Origin` lists the origins of a character; the formatting keeps the characters of the source with their flags and kind of line (from `C24_text_kept`, `C25_kinds`, `C31_replaced`, `C34_justified`, `C26_lines`), the rendering adds the ones of the skin (from `C35_drawn`). | proved: The scrollbar keeps its own characters in a skin limited to ASCII, so a view having one is not in ASCII (C82_ascii_example). A word made of just an ellipsis is written in the style of the ellipsis. |
| C83 | A text is formatted and printed part by part | M_Text, M_Wrap, M_TblFit, M_Render, M_Area | `S_Local` says when a table or a block is cut; the decomposition in runs (`fix_all_iff`, `fold_runs_fwd`) is shown compatible with the concatenation and functional, wrapping and writing are by induction on the lines. | proved: Stated for the formatted text and for the printing; C83_cut shows that cutting a table or a block of code does change the result. |
| C84 | A wider area never makes a text taller | M_Wrap, M_Text | the loop on the tokens is reduced to a state (ended lines, column) on words; the states for two widths are compared word by word (P_Taller) | partial: Proved, for all pairs of widths, for chars of one column without successive blanks, for lines which all begin at the same column (paragraphs, headers, code, quotes, items in block mode) and without margins. Refuted otherwise: several blanks, wide chars, items whose first line only is indented, margins forgotten in narrow areas. C84_words_partial: also true with wide chars and first-line-only indentation when the words fit, the blanks are single and the text doesn't end with a blank. |
| C85 | A skin which is saved and loaded again settles | M_Serde, M_Parse (ser_skin, de_skin) | P_Settle: what's read is faithful (C54) except for a rich scrollbar read as a simple one; a second reading settles it | partial: One round trip settles every skin except those whose rich scrollbar is read as a simple one (C85_once_refuted: the bold of a thumb is kept by the first loading and lost by the second); two round trips settle every skin (C85_twice). C85_exact: exactly when one is enough. |
| C86 | What the event source has read doesn't stay in it | M_Event (step, run) | P_Drain: induction on the work left to the thread, with the counts of sent, received and answered events (C55, C58) | proved:  |
| C87 | Scrolling in several steps is scrolling at once | M_View, M_List | P_Steps: induction on the calls with the functional specifications of C40 and C45 | partial: Proved for text views and mad views, and for lists without selection. Refuted for a list with a selection: it is scrolled back near the selection by each call. |
| C88 | Wrapping takes the least possible number of lines | M_Wrap (hard_wrap_composite, tokenize), M_Style | S_Optimal gives the words of a text and their layouts independently of the tokens; the loop is shown never to be further than any fitting layout after the same words (invariant on line and column), then the greedy layout is built when all words fit | partial: Any chars, styles, blanks, kinds and indentations. C88_optimal_partial: at least as few lines as any fitting layout, for texts not ending with a blank (needed: C88_trailing_refuted, a clean cut keeps a last blank on its own line). C88_reached: when words fit and blanks are single, some layout has exactly as many lines. C88_pieces: every text has words. |
| C89 | What a style text and a skin document mean | M_Parse, M_Serde | induction on the tokens; each entry of a document is an update of one part of the skin, updates of different parts commute | proved: C89_words: the tokens of a text made of words (with groups like rgb(1, 2, 3)) separated by blanks. C89_tokens, C89_compound_style, C89_line_style, C89_styled_char: what any list of tokens means, and the error of a refused text. C89_document, C89_order, C89_last, C89_scrollbar: documents. The formats (JSON, TOML...) are external; a document is a tree of texts, sequences and maps. |
| C90 | Without selection, an input content is a plain text with a cursor | M_Content, M_Input | S_Editor.v defines a plain editor on two strings; C90_step shows each operation of the content refines it, C90_runs and C90_keys extend that to histories and keys by induction | proved: Refinement: the content without selection is bisimilar to a two-string editor (S_Editor.v), for single operations, histories, keys and field methods. Selecting operations (make_selection, set_selection_tail, select_word_around) are outside: C07, C08, C09 tell about them. |
| C91 | Wrapping again changes nothing | M_Wrap, M_Text (hard_wrap_lines) | C91_fixed by induction on the lines: the first line of a wrapped composite always fits, so a composite which doesn't isn't given back; the others follow with C23 and C25 | partial: C91_fixed: the fixed points of the wrapping are exactly the lines which are all in place. Missing in C91_again_partial: chars without enough place, in front of which empty lines are added each time (C91_again_refuted). Missing in C91_wider_partial: margins which appear with the width (C91_wider_refuted). |
| C92 | The ready-made skins have the colors they're made for | `M_Style.v` (`skin_default`, `skin_no_style`, `line_style`, `compound_style`), `M_Serde.v` (`skin_default_dark`, `skin_default_light`) | a table of looks written apart (`S_Skins.v`), case analysis on flags, kinds and levels; `C82` brings all printed chars back to the text or the skin, `C81` gives the layout | proved: Each char has exactly the look of a table written apart from the model, for the three skins with colors; all what is printed with them is readable; they have the same layout. |
| C93 | A selection changes nothing until it's deleted | M_Content (all operations) | the two-string editor of C90 extended with the selecting operations; the simulation of P_Safe (`op_sim`) between a content and the same one without selection | proved: Deleting a wide selection is described by C09; it is the only operation left out here. |
| C94 | Things drawn in separate areas don't disturb each other | M_View, M_Render, M_Area, M_Input, M_Rect, M_List | an interpreter of the commands on a terminal (S_Paint); its cells are given by the last spot of S_Input which covers them; fills of C76, tiles of C13, cells of C50 tell which ones are covered; pens of C80 tell the looks; induction on the list of things, permutations | partial: Texts, views, fields and rectangles are proved with the hypotheses of C76, C13 and C50. Lists are partial: nothing changes at their left, above and under, but they erase what is at the right of their area where they have no row (C94_list_refuted), and leave what was there in the unused columns of their area (C94_list_again_refuted). The terminal is large enough, has no control chars, and half of a wide char may be overwritten. |
| C95 | What is read on the terminal is the text | `S_Read` (what is read in a cell, a row, an area), `M_Area`, `M_Text`, `M_Render` on the terminal of `S_Paint` | The rows drawn by C76 tile the columns of the area, so that reading the cells gives back the chars in order; the wrapped lines have, spaces aside, the chars of the source (C83, C29); composition. | proved: C95_lines: the formatted lines have just the visible chars of the source. C95_rows, C95_area: what is read in the area. C95_view: rows of a scrolled view. The lines are those of readable_line: quotes and code (marks repeated on each row, blanks) and tables (borders) are left to C76, which tells the cells themselves. C95_field_rows, C95_field: input fields. |
| C96 | What is typed is what is in the field, and on the screen | `M_Event`, `M_Input`, `M_Content`; `S_Typing` (the events given to the field, the keys of a stream) | C55 gives the received events from the read ones; C90 the effect of each key; induction on the received events. Drawing: C12 (no scroll for a text which fits), C95_field. | proved: C96_given: any list of events. C96_any: any time of any execution, any combiner. C96_keys, C96_text: when it is known which keys complete a combination (takes). C96_read: the drawn field reads as the typed text. The keys selecting with shift and the mouse are left out (C14, C93 tell what they do). |
| C97 | The borders of tables and rectangles join up | M_Style, M_Rect, M_Text, M_Render | S_Border.v gives the arms of the box-drawing chars; the borders of each line of a table are located in what is drawn (C35), the positions of rules come from C33, the columns from C30, and the cells of rectangles from C50 | proved: The hypotheses on the text are the ones of C69_printed (fitting_source). The ASCII borders have no arms, their chars are given by C97_lines. |
| C98 | A text read page by page is the text | M_View (MadView, TextView), M_Area, M_Render, S_Paint (the terminal) | `place` is the abstract position of the reader, `fresh_rows` the rows which weren't on the previous screen; run_place ties the model's scroll to it, view_row gives what is read on each row, then an induction on the number of pages | proved: C98_anywhere: all requests, all rows. C98_pages: page downs from the top, the whole source is read, nothing twice. C98_resized: another width restarts at the top. The columns read are the ones of the text: the last column of the area is left to the scrollbar when there is one. Tables, quotes and code are out of readable_line, as in C95. Resizing the height only is out of it (C40_mad_resize_refuted). |
| C99 | A table read on the terminal is the source table | `S_Cells` (rectangles of the terminal, cells of the source), `M_Text`, `M_TblFit`, `M_Render`, `M_Area` on the terminal of `S_Paint` | The lines replacing a row have in each column the visible chars of its cell (`replaces`, C24); a row is drawn as cells between borders whose places only depend on the widths of the columns; reading a part of a row gives the chars drawn there (part_drawn); C83 separates the table from what's around | proved: Spaces aside: whitespaces may be dropped at line breaks and are added to complete the cells. The cells of the table are paragraphs, what the parser gives (area_source). No special render (no_special). All the rows of a line of the table must be in the area for its reading, partially shown lines are not told of here (C97 and C76 tell what is drawn). |
| C100 | A list read on the terminal is the list | `S_ListRead` (what is read in a cell of a list), `M_List` on the terminal of `S_Paint` | `lv_write_on` is a move and a line for each row (C70); a line of narrow chars changes only the cells from its start, read back as its chars (inline_run, inline_read) and no other line (lines_kept, lines_read); the pieces of the lines are those of C47; histories come from C43 and C48 | proved: C100_list: all what is read of a list, line by line; C100_rows: the cells of each column from top to bottom; C100_history: after any history. Chars are narrow: cells are measured in chars by the code (C47_wide_refuted). The right of the lines, between the last column and the right of the area, isn't written by the code except on the lines without row, so nothing is told about it (C94_list_again_refuted). |
| C101 | The whole text read on the terminal is the source | M_Text, M_Wrap, M_TblFit, M_Render, M_Area, terminal of S_Paint | A text is cut in its tables, its blocks of code and its other lines, which are formatted apart (C83); lines made for each source line, with the widths shared in a table or in a block; reading of a part of a row of the terminal (C99) | proved: For texts drawn with the hypotheses of C76 (6 columns or more, margins not needing exactly the width, source lines having their place), all kinds of lines together: the unification of C95 (texts without quotes, code or tables) and C99 (one table). The blanks which are removed are the ones dropped by the wrapping (C24). Rows are read exactly, with their inner blanks, but for the number of spaces around them, which is only told for lines of code and tables. |
| C102 | A printed text is read on the terminal below what was there | M_Area, M_Render, M_Text | `S_Paper` specifies a terminal of a given size, with its wrap and its scroll. Each printed line has at most the width and no newline (C77, C82), so that the terminal doesn't wrap; it reads as the line completed with blanks would, which is read as in C101 | proved: The terminal wraps at its last column as usual terminals do (the cursor waits at the end of a full row). Text without newline inside a line, as the parser gives. Same place needed in the width as for C77. |
| C103 | A question and its answers are read on the terminal | M_Prompt, M_Ask, M_Area, M_Render | `S_Prompt` states the row of an answer as styled chars in cells. The two outputs of an answer are computed as styled chars, which are seen in the cells as they are since their sum has its place on the row; the text of the question is read as in C102 and keeps its rows by a frame argument | proved: Full property, for answers made of one paragraph. The making of inline templates by minimad isn't modelled: the three compounds they give are. C103_wide_example shows what the hypothesis on the width is needed for: the text of an answer is formatted for the whole width of the terminal, without the place taken by its key, so an answer which would be on a row without its key is cut anywhere by the terminal. |
| C104 | Every line of a source is reached and read in a scrolled view | M_View, M_Area, M_Render, M_Text | C101_view gives the reading for a scroll and a sharing of the rows which doesn't depend on it; the run of the operations is the clamped sum of what is asked (C98), and repeated presses on up or down give any place, the last ones being those of the end of the text | proved: Full property. C98 is about the lines which are read as they are, spaces aside, C104 about all kinds of lines, tables and code included. |
| C105 | What is pointed at with the mouse in an input field is what is seen | M_Input, M_Content, M_Style | the cells of a row are computed from C71_display and the spots of the screen, each being the last one written in its place; the positions of the mouse are the ones of C15; the run of the drags keeps the place of the press as the tail of the selection (induction on the way), and the range of the selection is the reading order | proved: C105_picture gives what is seen in each cell of the text; C105_press, C105_drag, C105_double and C105_cut what the mouse changes of it. For chars of other widths see C15_displayed_partial and its refutations. The two places of a drag must be on chars of the text; a drag may go anywhere between them. |
| C106 | What is read on the terminal has the looks told by the text and the skin | M_Style, M_Text, M_Wrap, M_TblFit, M_Render, M_Area, terminal of S_Paint | the flags of the chars are kept by the wrapping (C24) and the tables; each spot of the screen has the pen of its style (C80); the look of a compound is the fold of the styles; then line by line as for C101 | proved: On the terminal of S_Paint, with its style being the default one before. The look of a style put over others is stated in S_Look (last colors, all attributes) apart from the code; the color of underlines is not in the pens. C106_ellipsis shows why the source must be without the char of the ellipsis. |
| C107 | The selected row of a list is the one seen with the background of the selection | `S_ListLook` (look of cells, marking of a row), `M_List` on the terminal of `S_Paint` | the pen is the default one between lines (C80), so each line is inked from it (list_cells); the inks of a row are computed by induction on its columns, the pen left by a separator having no effect on the cell which follows (inked_sel); places are those of C47 | proved: C107_list gives the look of every part of a list; C107_marked says that a place of a line has the background of the selection exactly when its row is selected; C107_one that there is one marked line when the selected row is seen. The hypotheses are the ones of C100 and, for the last two, that the background of the selection is not one of the styles of the row and no style resets it.  C107_next: after any history, selecting the next or the previous row marks exactly the line of the closest row of the filter in this direction (area of at least 5 rows; if all the rows fit, the list must be at its top). |
| C108 | What is printed has the looks told by the text and the skin | M_Render, M_Text, M_Wrap (all of the printing) | the rows printed are the ones drawn with their completions (C102) but for blanks of the paragraph at their ends; looks of the completed rows from the lemma of C106; the same commands from the same pen change the same cells | proved: C108_printed: `print_text` on the paper terminal of C102 (wrapping, of the width of the text), from the start of a row, with the default pen and blank cells from the cursor. The spec (S_PaperLook.v, `without_ends`) compares with a terminal holding the complete rows, whose looks are told by `looks_line` of S_Look.v (C106): each row is the same up to a column, from which the cells are the ones from before and the complete row only has blanks of the paragraph. The example uses a terminal whose blank cells have a background, so that these are told apart. |
| C109 | Texts printed one after the other are all seen, in order | M_Render, M_Text, M_Wrap (all of the printing) | induction on the sequence: what is known of one printing (C102, C108) gives back its own hypotheses on the terminal after it, and changes no cell of the rows of the others | proved: C109_session: on the paper terminal; each text is still seen at the end, in its rows, as told by `text_seen` (S_Session.v: `reads_line` of C101/C102 and `looks_line` of C106/C108, compared with the terminal before the whole sequence). C109_screen: on a screen which scrolls. The sequence is any list of printings, each with its skin and width. |
| C110 | An input content is a text with a cursor and a mark | M_Content (all operations), M_Input (keys and mouse) | the two-string editor of C90 and C93 with a mark; each operation is shown to do with the tail of the selection what the reference does with the mark (`tail_*`), the deletion by C09 and `split_at`; the histories by induction; the keys and the mouse by C14 | proved: C110_step: any operation on any content whose cursor is in its text, whatever the tail of its selection, does what the reference of S_Marked does, and panics exactly when it has no result; C110_runs: any history; C110_unique: the reference state tells the whole content. C110_keys: any sequence of keys with or without shift on a focused field; C110_mouse: any mouse event over a focused field. The reference of the deletion uses the vocabulary of C09 (row_left, rows_left). |
| C111 | A wider area never makes a column of a table narrower | M_TblFit (all) | the two cutting steps without their checks (`fit_pure`); the second step takes all it can from each column; the gains of the first one, as functions of the excess, are increasing and grow by at most one; sorting keeps the comparison of two lists column by column | partial: False with three columns (C111_three_refuted: from 30 to 31 columns the widths go from 8, 8, 10 to 9, 9, 9, because the rounding up of the gains of the first columns leaves less to cut for the last one). Proved for one or two columns (C111_two_partial) and for any number of columns whose cells have about the same width (C111_steady_partial). C111_total: the whole table is never narrower. |
| C112 | A text read in a scrolled view is seen with its looks | `reading` of S_Reading.v: the view of M_MadView written on the terminal of S_Term after each group of operations | induction on the groups from their end: the last drawing is a `C106` look on a terminal with any content; `C104` places the window; the presses of `C104_reach` | proved: C112_reading: the state after any groups of scrolling operations with a drawing after each; C112_reach: from any of these states, presses on up or on down and one more drawing show any source line not taller than the area. The hypotheses are those of C104 and C106 (usual skin, at least 6 columns, lines which fit, no ellipsis in the source); the resizings are out of this property (C40). |
| C113 | Editing neither invents nor duplicates chars | the contents of M_Content and all their operations | on the reference of C110: the number of times a char is in a list of lines, each one with a line feed; exchanging two lines is a permutation; what is left by the deletion of a selection is made of parts of the lines | proved: C113_step: one operation; C113_kept: the exact numbers when the operation is not a deletion, a clearing or a replacement of the text; C113_runs and C113_lines: any history which does not panic (C01 and C110 tell when). |
| C114 | An input field which receives events is seen as it is | `editing` of S_Drawn.v: the events of M_Input, then its drawing on the terminal of S_Term, again and again | induction on the events: the state stays valid (`C72`), the chars of its text are old ones or typed ones (`C113`) so they keep one column, the number of lines and the scroll stay bounded so the drawing does not panic; each drawing is a `C105` picture and covers the previous one (`C94`) | proved: C114_editing: any events, the bound B on lines and scroll only says that rows stay within u16. C114_keys: the same with the content told by the reference of C110. Chars of more than one column are out of these statements: what is drawn of them is in C71 and C94. |
| C115 | A view which is resized shows the text in its new area | `reading` of S_Reading.v with the resizes of M_View; the reference `after` of S_Resized.v | the view is the one of the reference after each operation (`op_after`), its place being at most the number of lines; the drawing of C76 and the looks of C106 are first generalised to a scroll which is too far (`view_anywhere`, `look_anywhere`); induction on the groups; presses on up or down from any place | proved: C115_resized: the reference, the cells and the looks after any groups of operations. C115_place: where the place can be, the overscroll of C40_mad_resize_refuted being repaired by any scroll downwards. C115_reach: any line can still be reached. good_area is the hypothesis of C112 with room for the rows in u16. |
| C116 | An input field used by an application is seen as it is | `working` of S_App.v: all the operations `if_op` of M_Input, and its drawing on the terminal of S_Term | `fine` (valid content of chars of one column, room for the lines and the scroll) is kept by each operation: each one is a list of operations of the content (`op_content`), so `C113` bounds what is in the text; then as for C114, with the areas where the field was drawn | proved: C116_working: any groups of calls; n is any number of lines which the text does not pass, for which the areas have room. C116_content: the content alone, for any history, also with wide chars. The keys given to apply_key_combination count as possible line feeds, since they may be new-line keys. |
| C117 | Several widgets on the same terminal are each seen as if they were alone | `together` of S_Widgets.v: a list of widgets (`MadView`, `InputField`, `ListView`, `Rect`) whose requests are interleaved, on the terminal of S_Paint | each drawing is a picture of its cells only (C94, C118), so by induction on the requests the terminal agrees with the one of a widget alone in all cells the others don't touch; then C115, C116, C100, C107 and C50 for each widget, `seen_from` depending on the cells only | proved: C117_alone: non-interference for all interleavings. C117_settled: in separate cells, drawing a widget again changes nothing. C117_screen: with the hypotheses of C115, C116, C118 and C50, each widget is seen as it is. The cells of a list are the ones of C118, which may be out of its area (C94_list_refuted). |
| C118 | A list is drawn in exactly its cells | `lv_write_on` of M_List on the terminal of S_Paint | the commands of C70 line by line: each line is a picture of its cells (`draws`), a sequence of pictures is a picture of the union | proved: With the hypotheses of C94_list_partial, which it makes precise: the cells are told exactly instead of by a half plane. The terminal is large enough. |
| C119 | From the terminal events to the screen | the event source of M_Event, the field of M_Input given what is received (S_Typing), on the terminal of S_Paint | the received events are a subsequence of the read ones (C55); so what may be typed is counted and C116 applies to any grouping; C96 tells the text | proved: Composition of C55, C96, C114 and C116 for all executions. The chars take one column, the area has room for the lines which may be typed, and the terminal is large enough. |
| C120 | A question and what is answered are read on the terminal | M_Ask, M_Prompt | `S_Dialog` interleaves what is printed with the echo of the lines which are read. The lines which are read come from C61, the rows of the question and of its answers from C103; they're kept by what follows, and an induction on the lines which aren't understood gives the other rows | proved: The echo of what is typed is the one of a terminal in line mode: a line is shown where the cursor is, the enter key goes to the next row. It isn't part of the code: `dialog` places it before the message which answers the line. The lines shown must be narrower than the terminal, as for the answers in C103. Escaped chars of `{:?}` are those of the quantified `debug`. |
| C121 | In a form, the events are for the field in which the button was pressed last | M_Input, M_Event | `S_Form` states the application and the share of each field from the areas and the presses only. One event on one field is computed in all cases (C14, C72); the invariant on an event is: the focus is the one of the owner, and each field has received its share; the whole by induction on the events. The text after a press comes from C96 | proved: The application (giving the events, taking the focus from the other fields) is stated in `S_Form`: it isn't part of the code, which has no form. `C121_both_example` shows it's needed: pressing in a second field leaves the focus to the first one too, and both take the keys. |
| C122 | A form is seen as it is | M_Input, M_Event, M_View | `S_FormDrawn` states which calls each field gets for an event. The fields of the form are those of these calls (induction on the events); the widgets seen as if alone (C117) show the cells, and what the event source gives is a subsequence of what is read (C119) | proved: The cells shown are those of the text; the cell of the scrollbar, when there is one, is told by C105 and C71. As in C121 the application isn't part of the code. |
| C123 | When widgets are drawn over one another, the last one drawn in a cell is the one which is seen | `layers` of S_Layers.v: the widgets as they were each time they were drawn, over `together` of S_Widgets.v | each drawing is a picture of its cells which depends neither on what was there nor on the terminal (C94, C118), so by induction on the requests each cell is the one of its topmost layer; then what is seen of the widget as in C117, drawing it again changing nothing | proved: C123_top: each cell is what its topmost layer draws on any terminal, or unchanged; C123_screen: a widget is seen as it is as long as those drawn after it are out of its cells, whatever was drawn before; C123_last: the widget drawn last is seen entirely. |
| C124 | The application of the example `scrollable` shows its text, and nothing else, whatever is typed and however the terminal is resized | `view_area`, `app_react`, `app_loop` and `run_app` of M_Scrollable.v, from examples/scrollable/main.rs:25-62, over `MadView` and `Area` | by induction on the events: the view is at the place told by `after` (C115), its drawing is a picture of the column (C94), the cells out of the column stay empty, since a resize clears the screen; the keys to reach a line from `goes` | proved: C124_area: the column; C124_screen: the screen while the application waits; C124_reach: any line can be brought on the screen; C124_leave, C124_ends: how it ends. The entering and leaving of the alternate screen and of the raw mode are not modelled, the screen being taken as empty when it is entered. |
| C125 | The application of the example `inputs` keeps its widgets apart, exactly one of them having the focus, and only changes the one with the focus | `View` with its `resize`, `set_focus`, `apply_key_combination`, `apply_mouse_event` and `apply_timed_event` of M_Inputs.v, from examples/inputs/view.rs, over the model of `InputField` and `MadView` | an invariant (`sound` of S_Inputs.v), kept by each event, by the lemmas of C14 and C72 on fields; induction on the events | partial: C125_event: each event keeps the invariant and moves the focus as told; C125_run: all the sequences of events, from the start; C125_keys, C125_texts: what is changed; C125_tabs: the tab key. That the area of the view after a resize is the one of the event is in the lemma resize_sound, not in these theorems, which are relative to the area of the view. C125_label_refuted: the area of the label of the comments goes 6 rows below the terminal. The drawing and the real clipboard are not modelled: the answers of the clipboard are quantified. |

## Refutations

Claims which are false of the faithful model. Each one is a theorem giving the counterexample, checked by computation.

* `C01_histories_are_safe_refuted`: The full property is false: [set_selection_tail] checks the tail against the line of the cursor, not against the line of the tail, and deleting the selection later panics.
* `C04_delete_below_refuted`: On an empty last line there is nothing at the cursor, but [del_char_below] removes the line break before it
* `C09_cut_paste_refuted`: Cut and paste doesn't restore the text, even on one line: the selected line feed isn't removed
* `C09_multiline_refuted`: "abc/def" with the selection from b to e: "a/ef" remains instead of "af"
* `C10_cursor_refuted`: The cursor does not stay on its char when the neighbour line is shorter
* `C111_three_refuted`: C111 is false with three columns: with one more column of place, the third one has one column less
* `C125_label_refuted`: The label of the comments is 6 rows lower than the bottom of the terminal: its height is computed from the one of the introduction, as if nothing was between both
* `C12_backspace_refuted`: The backspace key doesn't scroll
* `C12_below_refuted`: Going down to the line just below the window doesn't scroll
* `C12_delete_refuted`: nor does the delete key, even when what's displayed is wholly removed
* `C12_password_refuted`: With wide chars as a password, the cursor isn't drawn
* `C12_small_width_refuted`: With 3 columns
* `C13_cursor_refuted`: With an ellipsis on the left, the returned position isn't on the cell drawn with the cursor style: it's one column before
* `C13_no_room_refuted`: An area of one column with a scrollbar: the text also takes a column
* `C13_tab_refuted`: The width of a tab is counted as 2 but the tab is written as is: the row is then filled as if it took 2 columns, whatever the tab stops of the terminal
* `C14_event_new_line_refuted`: A key declared as a new-line one is ignored by [apply_event]
* `C14_single_line_refuted`: The key Char of a line feed adds a line to a single line field
* `C14_unfocused_keycode_refuted`: [apply_keycode_event] changes a field which is not focused
* `C15_cut_refuted`: When a wide char is cut by the left side, a click on the second displayed char ("e") puts the cursor on the first one ("d")
* `C15_wide_refuted`: A click on the second column of a wide char puts the cursor after it
* `C17_remaining_refuted`: A backspace going left of the start of its own string isn't given back.
* `C17_styled_tab_refuted`: [queue_char] sends a styled tab as is, counting no column.
* `C18_char_refuted`: The full property is false for a char filling exactly the remaining columns,
* `C18_null_width_refuted`: and for a string of null width (here a combining accent would be one) when there's no more room.
* `C22_fair_refuted`: Two columns of the same natural width: one is cut to 3, the other one is left
* `C22_reduced_refuted`: The only column is cut but [reduced] isn't set
* `C23_item_refuted`: A list item of depth 1 at width 3 (with the default skin, list items are indented in block): each letter gives a line of 4 columns
* `C23_wide_quote_refuted`: A wide char in a quote at width 3
* `C24_glued_refuted`: "aaaa b" at width 5 gives "aaaab": the three spaces don't fit and are dropped, then the b fits
* `C25_empty_line_refuted`: Two wide chars in a list item, at width 3: the first line has only the bullet
* `C26_error_refuted`: Not an error below 3 when nothing has to be wrapped
* `C26_panic_refuted`: A list item of depth 2 at width 3: the bullet and indentation don't fit, the subtraction overflows
* `C27_empty_compound_refuted`: With an alignment which removes chars at the left, an empty compound makes it panic
* `C27_fits_refuted`: The indentation and the bullet of a list item are never removed
* `C27_length_refuted`: And they're not counted in the cached length when the width is 0 or 1
* `C27_panic_refuted`: A token of two wide chars has nothing to remove: the gain underflows
* `C29_margin_refuted`: The margin of the style is added to the width
* `C29_mark_refuted`: The quote mark is written when there's no place for it
* `C30_cells_fit_refuted`: A list item in a cell (a cell made by the program, not parsed): the bullet makes the cell wider than its column
* `C34_wrapped_refuted`: C34: the lines of a code block are justified before being wrapped, so that the wrapped lines are wider than the width
* `C35_empty_rule_refuted`: A rule without any column takes 2 columns, not the computed one: the line is too wide. It's what is made from a table in less than 5 columns.
* `C35_spacing_refuted`: A spacing smaller than the content isn't respected, and the line is completed as if it was
* `C35_special_refuted`: A special char replacing a compound of another width changes the width of the line
* `C36_left_unit_refuted`: An underline color (which a style made from a crossterm style can have) is lost.
* `C37_blend_refuted`: [blend_with] is not the blend of both colors
* `C38_drawn_refuted`: After [blend_with], the char is drawn with its old style
* `C39_bottom_small_refuted`: The thumb is at the bottom but there's still a row to see
* `C39_bottom_tall_refuted`: The thumb of a tall content is at the bottom before the end
* `C39_last_row_refuted`: Scrolled to the end, the last row of the thumb is below the area
* `C39_one_row_refuted`: In an area of one row, the thumb goes below the area
* `C40_mad_null_width_refuted`: A null width panics
* `C40_mad_pages_refuted`: Too many pages panic
* `C40_mad_resize_refuted`: When a [MadView] gets taller, it keeps a scroll past the end
* `C40_min_refuted`: [try_scroll_lines(i32::MIN)] panics
* `C40_null_height_refuted`: In an area of null height, the view didn't move but the returned boolean is true
* `C40_null_height_up_refuted`: The same when going up
* `C40_pages_refuted`: so does going up of too many pages
* `C42_tall_field_refuted`: An input field with 65537 lines has no scrollbar
* `C42_tall_refuted`: With 65536 lines or a little more, there's no scrollbar
* `C45_all_fit_refuted`: When the list can just be seen whole, it can be scrolled of one line, and then selecting the first row doesn't show it
* `C45_bottom_refuted`: With a filter, the scroll counts displayed rows here and all rows elsewhere: the last row isn't seen
* `C45_in_rows_refuted`: Scrolling when the area is empty puts the scroll out of the rows, which makes drawing panic once the area is larger
* `C45_scroll_min_refuted`: Scrolling of [i32::MIN] lines panics
* `C45_scroll_panic_refuted`: Scrolling down a list shorter than its area panics
* `C45_select_panic_refuted`: Selecting the previous row may panic (subtraction underflow)
* `C45_small_refuted`: With the visible lines reduced to one or two, the selected row isn't seen
* `C46_min_over_max_refuted`: A column whose minimum is over its maximum panics
* `C46_no_max_refuted`: A maximal width of [usize::MAX], meaning no maximum, makes the column that wide
* `C47_wide_refuted`: With wide chars, the rows don't have the width of the separator line: cells are measured in chars
* `C48_selection_refuted`: Adding a row before the selected one changes which row is selected
* `C48_sort_later_refuted`: Setting an order doesn't sort the rows already there
* `C49_overflow_refuted`: An area reaching the last [u16] can't be asked about its last column
* `C49_pad_too_big_refuted`: "this will crash if padding is too big. feature?"
* `C51_read_back_refuted`: Seven colors are lost; in particular dark ones are read as bright
* `C52_blink_refuted`: Attributes which can be parsed are lost, as they aren't printed
* `C52_reset_refuted`: A style with a [Reset] foreground gets its background as foreground
* `C52_write_style_tokens_refuted`: [write_style_tokens] glues its tokens after the first one
* `C53_char_refuted`: A char which is a digit is not read back
* `C53_margin_refuted`: A margin over 65535 is not read back
* `C54_borders_refuted`: Other table borders than the three known ones
* `C54_color_refuted`: The color of a style
* `C54_indent_refuted`: The indentation mode of the lists: the lines after the first one of an item are indented differently
* `C54_scrollbar_refuted`: The attributes of a simple scrollbar, and the absence of color of its thumb
* `C54_special_refuted`: The special chars
* `C55_full_refuted`: The eleventh sequence which isn't received is lost
* `C56_runs_refuted`: A sequence following an unfinished one isn't recognized: its keys are delivered one by one
* `C58_early_quit_refuted`: A call of unblock(true) while the thread reads doesn't prevent the next event
* `C58_early_unblock_refuted`: A call of unblock before the event allows two events
* `C62_eof_refuted`: At the end of the input, a question without default asks forever
* `C63_complete_refuted`: The width is rounded, the bar may be shorter when complete
* `C63_too_long_refuted`: or longer
* `C66_null_width_refuted`: A view with a scrollbar and a null width panics
* `C69_row_width_refuted`: The content width counts neither the borders nor the paddings of the rows of a table
* `C70_column_refuted`: The scrollbar is out of the area
* `C70_filter_refuted`: With a filter, the scrollbar mixes an index among all rows with a number of displayed ones: the thumb is below its track
* `C70_height_refuted`: So is the separator line when the height is 1
* `C70_thumb_refuted`: The place of the thumb counts the top of the area twice: with an area which isn't at the top of the screen, there may be no thumb
* `C76_margins_refuted`: The text is formatted for one column less than the area but written on its whole width: when the margins of a style need exactly this width (with 3 columns for the text), they're ignored when wrapping but not when writing, so the lines are written out of the area
* `C76_narrow_refuted`: In an area of 3 columns or less, the lines are formatted for less than 3 columns so they're not wrapped: they're written out of the area
* `C76_null_width_refuted`: [area.width as usize - 1] panics for a null width
* `C76_view_margins_refuted`: The same happens with a view
* `C77_code_refuted`: Code lines are justified before being wrapped: they may be larger than the terminal
* `C84_blanks_refuted`: Several blanks which don't fit are dropped and the next word is glued, while a wider area has place for the blanks
* `C84_item_refuted`: An item, only its first line being indented: the pieces are cut for the first line, the other ones having more place
* `C84_margins_refuted`: The margins of a style are forgotten when the area is too narrow for them: with margins of 4 and 4, a text is taller in 11 columns than in 10
* `C84_wide_refuted`: Wide chars: a longer piece doesn't fit any more beside the previous compound
* `C85_once_refuted`: One isn't enough: the backgrounds of this scrollbar aren't printed, so that it's read as a rich one without them, which is then saved as a simple one: the bold is kept the first time and lost the second one.
* `C87_list_refuted`: In a list with a selection, steps in one direction may lead elsewhere than one of their total
* `C88_trailing_refuted`: A clean cut keeps a last blank on a line of its own, when it could have been dropped
* `C91_again_refuted`: Without enough room for a char, lines having only the quote mark are added each time
* `C91_wider_refuted`: Margins of 2 and 1 columns are used from a width of 6: a paragraph wrapped at 5 columns, without them, is wrapped again at 6
* `C94_list_again_refuted`: and, where it has rows, it leaves what was there in the columns of its area it doesn't use
* `C94_list_refuted`: A list erases what is at the right of its area, where it has no row

## Theorems

All of them are closed under the global context.

* C01: `C01_histories_are_safe_partial`, `C01_each_operation_is_safe_partial`, `C01_histories_are_safe_refuted`, `C01_exact`, `C01_histories_exact`, `C01_tails_in_text`
* C02: `C02_from_string`, `C02_iteration_is_display`, `C02_is_str`, `C02_set_str`, `C02_is_empty`, `C02_push_char`
* C03: `C03_insert_char`, `C03_insert_new_line`, `C03_insert_str`
* C04: `C04_delete_left`, `C04_delete_below_partial`, `C04_delete_below_refuted`, `C04_type_then_delete`
* C05: `C05_move_right`, `C05_move_left`, `C05_can_move`, `C05_left_undoes_right`, `C05_right_undoes_left`, `C05_to_end`, `C05_to_start`, `C05_to_line_end`, `C05_to_line_start`, `C05_set_cursor`
* C06: `C06_up`, `C06_down`
* C07: `C07_word_left`, `C07_word_right`, `C07_delete_word_left`, `C07_delete_word_right`
* C08: `C08_selection_is_ordered`, `C08_reading_order`, `C08_contains`, `C08_selection_string`, `C08_set_tail`
* C09: `C09_inline_partial`, `C09_whole_lines_partial`, `C09_nothing_else_lost_partial`, `C09_wide_selection`, `C09_multiline_refuted`, `C09_cut_paste_refuted`, `C09_rows`, `C09_row`, `C09_cases`
* C10: `C10_line_up_partial`, `C10_line_down_partial`, `C10_up_then_down_partial`, `C10_swap_lines`, `C10_cursor_refuted`
* C11: `C11_select_word`
* C12: `C12_only_scroll`, `C12_row_partial`, `C12_below_hidden`, `C12_vertical_scroll`, `C12_horizontal_scroll`, `C12_column_partial`, `C12_drawn_partial`, `C12_below_refuted`, `C12_backspace_refuted`, `C12_delete_refuted`, `C12_small_width_refuted`, `C12_password_refuted`
* C13: `C13_rows_partial`, `C13_no_panic`, `C13_cursor_partial`, `C13_cursor_refuted`, `C13_no_room_refuted`, `C13_tab_refuted`
* C14: `C14_key_move`, `C14_key_ignored`, `C14_key_delete`, `C14_key_char`, `C14_key_combination`, `C14_new_line_key`, `C14_key_event`, `C14_event`, `C14_unfocused_partial`, `C14_false`, `C14_mouse_outside`, `C14_mouse_unfocused`, `C14_mouse`, `C14_single_line_partial`, `C14_single_line_refuted`, `C14_unfocused_keycode_refuted`, `C14_event_new_line_refuted`
* C15: `C15_click`, `C15_unique`, `C15_displayed_partial`, `C15_narrow`, `C15_line_end`, `C15_wide_refuted`, `C15_cut_refuted`
* C16: `C16_fitting_prefix`, `C16_longest`, `C16_made_columns`
* C17: `C17_never_more_partial`, `C17_remaining_partial`, `C17_styled_tab_refuted`, `C17_remaining_refuted`
* C18: `C18_fitting_string_is_written`, `C18_long_string_is_cut`, `C18_g_string`, `C18_char_partial`, `C18_wide_char_is_dropped`, `C18_repeat`, `C18_fill`, `C18_char_refuted`, `C18_null_width_refuted`
* C19: `C19_filling`, `C19_fill_bg`
* C20: `C20_completions`, `C20_optional`, `C20_write_str`, `C20_write_counted_str`, `C20_columns`
* C21: `C21_error`, `C21_fit`, `C21_never_wider`
* C22: `C22_reduced_partial`, `C22_average_kept_partial`, `C22_widest_first`, `C22_fair_refuted`, `C22_reduced_refuted`
* C23: `C23_overflow`, `C23_exact`, `C23_lines_fit_partial`, `C23_plain_lines_fit`, `C23_wide_quote_refuted`, `C23_item_refuted`
* C24: `C24_text_kept`, `C24_non_blank_kept`, `C24_not_glued_partial`, `C24_glued_refuted`
* C25: `C25_kinds`, `C25_cached_length`, `C25_from_length`, `C25_not_empty_partial`, `C25_empty_line_refuted`
* C26: `C26_exact`, `C26_composite`, `C26_error_partial`, `C26_no_panic_partial`, `C26_lines`, `C26_error_refuted`, `C26_panic_refuted`
* C27: `C27_aligned_exact`, `C27_fits_partial`, `C27_no_place`, `C27_no_panic_partial`, `C27_narrow_no_panic`, `C27_left_no_panic`, `C27_panic_refuted`, `C27_empty_compound_refuted`, `C27_fits_refuted`, `C27_length_refuted`
* C28: `C28_again`, `C28_unchanged`, `C28_elided`, `C28_tiny`, `C28_left`, `C28_right`, `C28_center`, `C28_center_one`, `C28_token_cut`, `C28_compound_cut`, `C28_cuts`, `C28_default`, `C28_default_fitter`
* C29: `C29_filled_partial`, `C29_extend`, `C29_printed_partial`, `C29_exact`, `C29_margin_refuted`, `C29_mark_refuted`
* C30: `C30_printed_partial`, `C30_columns`, `C30_widths`, `C30_cells_fit_partial`, `C30_cells_fit_refuted`
* C31: `C31_replaced`, `C31_text`
* C32: `C32_exact`, `C32_text_exact`, `C32_no_panic_partial`, `C32_wide_enough`, `C32_refuted`, `C32_text_no_panic_partial`
* C33: `C33_position_before`, `C33_positions`
* C34: `C34_block`, `C34_block_exact`, `C34_wrapped_refuted`, `C34_printed`, `C34_justified`
* C35: `C35_drawn`, `C35_no_panic`, `C35_panics`, `C35_exact_partial`, `C35_overflow`, `C35_not_completed`, `C35_no_width`, `C35_empty_rule_refuted`, `C35_special_refuted`, `C35_spacing_refuted`, `C35_inline`, `C35_visible_line_length`
* C36: `C36_composition`, `C36_ellipsis`, `C36_ellipsis_only`, `C36_overwrite`, `C36_associative`, `C36_unit_partial`, `C36_left_unit_refuted`, `C36_attributes`, `C36_setters`
* C37: `C37_blend_refuted`, `C37_blend_actual_partial`, `C37_identity`, `C37_skin`
* C38: `C38_drawn_partial`, `C38_setters`, `C38_drawn_refuted`, `C38_scrollbar`, `C38_gray`
* C39: `C39_none_iff_fits`, `C39_inside_partial`, `C39_top_iff_not_scrolled`, `C39_monotone`, `C39_end_touches_bottom`, `C39_bottom_only_at_end_partial`, `C39_bottom_tall`, `C39_last_row_refuted`, `C39_one_row_refuted`, `C39_bottom_small_refuted`, `C39_bottom_tall_refuted`
* C40: `C40_set_scroll`, `C40_scroll_lines_partial`, `C40_floor_ceil`, `C40_pages_to_lines`, `C40_pages_extremes`, `C40_scroll_pages_partial`, `C40_line_up`, `C40_line_down`, `C40_page_up_partial`, `C40_page_down_partial`, `C40_keys_partial`, `C40_each_call_partial`, `C40_histories_partial`, `C40_mad_lines_partial`, `C40_mad_pages_partial`, `C40_mad_keys_partial`, `C40_mad_histories_partial`, `C40_mad_resize_partial`, `C40_min_refuted`, `C40_pages_refuted`, `C40_null_height_refuted`, `C40_null_height_up_refuted`, `C40_mad_resize_refuted`, `C40_mad_pages_refuted`, `C40_mad_null_width_refuted`
* C41: `C41_page_downs`, `C41_page_up_undoes`, `C41_page_down_undoes`, `C41_whole_pages`
* C42: `C42_input_field_partial`, `C42_tall_field_refuted`, `C42_field_exact`, `C42_text_view_partial`, `C42_hidden`, `C42_tall_refuted`, `C42_exact`
* C43: `C43_consistent`, `C43_in_order`
* C44: `C44_nothing`, `C44_next`, `C44_first`, `C44_first_line`, `C44_last_line`, `C44_reachable`, `C44_only_scroll`
* C45: `C45_visible_partial`, `C45_visible_scroll`, `C45_visible_panics`, `C45_select_panic_refuted`, `C45_small_refuted`, `C45_all_fit_refuted`, `C45_scroll_down`, `C45_scroll_up`, `C45_scroll_pages`, `C45_scroll_panic_refuted`, `C45_scroll_min_refuted`, `C45_in_rows`, `C45_in_rows_refuted`, `C45_bottom`, `C45_bottom_refuted`, `C45_add`, `C45_add_still`
* C46: `C46_widths_partial`, `C46_min_over_max_refuted`, `C46_no_max_refuted`, `C46_exact`
* C47: `C47_reachable`, `C47_new`, `C47_cell`, `C47_new_parts`, `C47_row`, `C47_separator`, `C47_title`, `C47_printed_partial`, `C47_wide_refuted`
* C48: `C48_sorted`, `C48_inserted`, `C48_unsorted`, `C48_kept`, `C48_always`, `C48_selection_partial`, `C48_selection_refuted`, `C48_sort_later_refuted`
* C49: `C49_contains_partial`, `C49_edges_partial`, `C49_pad_partial`, `C49_max_width_partial`, `C49_uninitialized`, `C49_pad_too_big_refuted`, `C49_overflow_refuted`, `C49_contains_exact`, `C49_edges_exact`, `C49_pad_exact`, `C49_max_width_exact`
* C50: `C50_cells`, `C50_area`, `C50_panics`, `C50_line`, `C50_setters`
* C51: `C51_exact`, `C51_read_back_partial`, `C51_read_back_refuted`, `C51_texts_distinct`, `C51_injective`
* C52: `C52_tokens`, `C52_attributes`, `C52_attribute_texts`, `C52_exact`, `C52_read_back_partial`, `C52_stable`, `C52_reset_refuted`, `C52_blink_refuted`, `C52_write_style_tokens_refuted`
* C53: `C53_line_exact`, `C53_line_read_back_partial`, `C53_margin_refuted`, `C53_char_exact`, `C53_char_read_back_partial`, `C53_char_stable`, `C53_char_refuted`
* C54: `C54_exact`, `C54_read_back_partial`, `C54_defaults`, `C54_render_partial`, `C54_headers_text`, `C54_headers_levels`, `C54_keys`, `C54_unknown_key`, `C54_documents`, `C54_indent_refuted`, `C54_color_refuted`, `C54_special_refuted`, `C54_scrollbar_refuted`, `C54_borders_refuted`
* C55: `C55_cut`, `C55_exact`, `C55_received`, `C55_once_partial`, `C55_losses`, `C55_defaults`, `C55_full_refuted`
* C56: `C56_form`, `C56_runs_partial`, `C56_text`, `C56_runs_refuted`
* C57: `C57_double_click`, `C57_received`
* C58: `C58_credit`, `C58_one_by_one_partial`, `C58_count`, `C58_unblock_panics`, `C58_progress`, `C58_no_spin`, `C58_early_unblock_refuted`, `C58_early_quit_refuted`
* C59: `C59_at_most`, `C59_payload`, `C59_ids`, `C59_received`, `C59_exactly`, `C59_infinite`, `C59_missions`, `C59_independent`, `C59_local`, `C59_receiver`
* C60: `C60_after_stop`, `C60_thread_ends`, `C60_after_stop_all`, `C60_others`, `C60_never_blocks`
* C61: `C61_answer`, `C61_returned`, `C61_error`, `C61_prompt`, `C61_build`
* C62: `C62_ends_partial`, `C62_iff`, `C62_eof_refuted`
* C63: `C63_no_panic`, `C63_width_partial`, `C63_complete_partial`, `C63_zero`, `C63_monotone`, `C63_precise`, `C63_padded`, `C63_complete_refuted`, `C63_too_long_refuted`
* C64: `C64_set_fg`, `C64_set_bg`, `C64_others`, `C64_global_bg`, `C64_ascii`, `C64_defaults`, `C64_line_style`
* C65: `C65_margins`
* C66: `C66_text_row_partial`, `C66_rows_partial`, `C66_row_columns`, `C66_mad_view_partial`, `C66_null_width_refuted`, `C66_exact`
* C67: `C67_words`, `C67_compounds`, `C67_greedy`, `C67_clean_cut`
* C68: `C68_alignments`
* C69: `C69_printed_partial`, `C69_displayed`, `C69_lines`, `C69_prose_kept`, `C69_fits_partial`, `C69_content_width`, `C69_line_lengths`, `C69_row_width_refuted`, `C69_overflow`
* C70: `C70_drawn`, `C70_row_marked`, `C70_scrollbar_no_panic`, `C70_column_refuted`, `C70_height_refuted`, `C70_thumb_refuted`, `C70_filter_refuted`
* C71: `C71_display`, `C71_scrollbar_style`, `C71_unfocused`, `C71_password`
* C72: `C72_content_op`, `C72_get_content`, `C72_cut`, `C72_replace`, `C72_scroll`, `C72_keys`, `C72_area`, `C72_change_area`, `C72_focus`, `C72_styles`, `C72_new`, `C72_default`, `C72_step`, `C72_histories`
* C73: `C73_click`, `C73_is_key`
* C74: `C74_spacing`, `C74_past`
* C75: `C75_exotic`, `C75_macro`
* C76: `C76_area_partial`, `C76_view_partial`, `C76_null_width_refuted`, `C76_narrow_refuted`, `C76_margins_refuted`, `C76_view_margins_refuted`
* C77: `C77_printed_partial`, `C77_sizes`, `C77_code_refuted`
* C78: `C78_leftmost`, `C78_matches`, `C78_color`, `C78_attribute`, `C78_align`, `C78_token`, `C78_tokens`
* C79: `C79_case`, `C79_forms`, `C79_grey_level`, `C79_names`, `C79_only`
* C80: `C80_line`, `C80_text`, `C80_inline`, `C80_text_view`, `C80_mad_view`, `C80_area`, `C80_rect`, `C80_crop_writer`, `C80_colors`, `C80_input`, `C80_list`, `C80_list_unselected`
* C81: `C81_formatted`, `C81_line`, `C81_printed`, `C81_area`, `C81_inline`, `C81_recolored`, `C81_chars`
* C82: `C82_printed`, `C82_area`, `C82_inline`, `C82_filled`, `C82_plain`, `C82_no_style`, `C82_ascii`
* C83: `C83_formatted`, `C83_printed`, `C83_each_line`
* C84: `C84_words_partial`, `C84_not_taller_partial`, `C84_blanks_refuted`, `C84_wide_refuted`, `C84_item_refuted`, `C84_text_partial`, `C84_margins_refuted`
* C85: `C85_loaded`, `C85_once_partial`, `C85_exact`, `C85_twice`, `C85_once_refuted`
* C86: `C86_no_deadlock`, `C86_drained`, `C86_quit`, `C86_dropped`, `C86_unheard`
* C87: `C87_text`, `C87_mad`, `C87_back`, `C87_list_partial`, `C87_list_refuted`
* C88: `C88_optimal_partial`, `C88_pieces`, `C88_reached`, `C88_trailing_refuted`
* C89: `C89_tokens`, `C89_words`, `C89_compound_style`, `C89_line_style`, `C89_styled_char`, `C89_unique`, `C89_order`, `C89_document`, `C89_last`, `C89_scrollbar`
* C90: `C90_step`, `C90_runs`, `C90_unique`, `C90_all`, `C90_keys`, `C90_field`
* C91: `C91_fixed`, `C91_again_partial`, `C91_wider_partial`, `C91_again_refuted`, `C91_wider_refuted`
* C92: `C92_text`, `C92_marks`, `C92_lines`, `C92_readable`, `C92_same_shape`, `C92_no_style`
* C93: `C93_step`, `C93_narrow`, `C93_histories`, `C93_unselected`
* C94: `C94_text`, `C94_view`, `C94_field`, `C94_rect`, `C94_again`, `C94_all`, `C94_order`, `C94_cells`, `C94_list_partial`, `C94_list_refuted`, `C94_list_again_refuted`
* C95: `C95_lines`, `C95_rows`, `C95_area`, `C95_view`, `C95_field_rows`, `C95_field`
* C96: `C96_given`, `C96_any`, `C96_keys`, `C96_text`, `C96_read`
* C97: `C97_lines`, `C97_rect`, `C97_half`, `C97_table`, `C97_joined`, `C97_rule`
* C98: `C98_anywhere`, `C98_pages`, `C98_resized`
* C99: `C99_area`, `C99_view`
* C100: `C100_list`, `C100_rows`, `C100_history`
* C101: `C101_area`, `C101_view`
* C102: `C102_printed`, `C102_screen`
* C103: `C103_prompt`
* C104: `C104_anywhere`, `C104_reach`
* C105: `C105_picture`, `C105_press`, `C105_drag`, `C105_cut`, `C105_double`
* C106: `C106_area`, `C106_view`
* C107: `C107_list`, `C107_marked`, `C107_one`, `C107_next`
* C108: `C108_printed`
* C109: `C109_session`, `C109_screen`
* C110: `C110_step`, `C110_runs`, `C110_unique`, `C110_keys`, `C110_mouse`
* C111: `C111_two_partial`, `C111_steady_partial`, `C111_total`, `C111_three_refuted`
* C112: `C112_reading`, `C112_reach`
* C113: `C113_step`, `C113_kept`, `C113_runs`, `C113_lines`
* C114: `C114_editing`, `C114_keys`
* C115: `C115_resized`, `C115_place`, `C115_reach`
* C116: `C116_working`, `C116_content`
* C117: `C117_alone`, `C117_settled`, `C117_screen`
* C118: `C118_list`, `C118_again`, `C118_area`
* C119: `C119_received`, `C119_screen`, `C119_typed`
* C120: `C120_dialog`
* C121: `C121_form`, `C121_untouched`, `C121_typed`, `C121_first`
* C122: `C122_screen`, `C122_source`
* C123: `C123_top`, `C123_screen`, `C123_last`
* C124: `C124_area`, `C124_screen`, `C124_reach`, `C124_leave`, `C124_ends`
* C125: `C125_event`, `C125_run`, `C125_keys`, `C125_texts`, `C125_tabs`, `C125_label_refuted`
