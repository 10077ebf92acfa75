# Formal model of termimad 0.31.3

The source under study is `/repo/src` (read as text, never built or run).
The model is written in Rocq/Coq 8.16.1, in `rocq/theories`.
This file is made by `tools/mkdesign.py` from `tools/design_head.md`, `tools/plan.json`, `MANIFEST.json` and the `P_*.v` files.

## File layout

* `Base.v`: characters, the Unicode oracle, the panic monad. `L_Base.v`: lemmas on lists. `Demo.v`: an oracle for the examples.
* `M_*.v`: the model. Only definitions, each one with the file and lines it comes from.
* `S_*.v`: small specifications, which don't use the helpers of the model.
* `L_*.v`: lemmas and proofs.
* `P_*.v`: the property theorems, `Print Assumptions` for each, concrete examples (`Example`: tests of the hypotheses, not proofs).
* `T_Repo.v`: the unit tests of the repository computed on the model (tests of its faithfulness; those of `src/parse` and `src/serde` are in `P_Parse.v` and `P_Serde.v`).
* `seeded/LOG.jsonl`: the wrong programs against which the theorems were tried, with the theorems which fail.
* `tools/`: the scripts making `MANIFEST.json` and this file, and running the mutations.

## Modelling choices (common to all files)

* A Rust `char` is a Unicode scalar value, modelled as an `N`. A `String` is a list of chars.
  Byte offsets are modelled only where the code slices by bytes, through `len_utf8`.
* `UnicodeWidthChar::width`, `UnicodeWidthStr::width`, `char::is_whitespace` and
  `char::is_alphanumeric` are functions of other crates: they are fields of a record
  (`unicode`) over which all the theorems are quantified. The width of a string is a field
  distinct from the width of a char; a theorem which needs "the width of a string is the sum of
  the widths of its chars" (true of unicode-width up to 0.1.12) has it as a visible
  hypothesis (`additive`).
* `usize` is `nat` (or `N` in the views). Additions are unbounded: overflow over 2^64 isn't modelled, but for the event count and the
  `usize::MAX` special values. Subtractions which could underflow are checked: an underflow is the outcome `Panic`, as in a build with
  overflow checks (dev profile). `u16` truncations (`as u16`), `u16` overflows and `i32` bounds are modelled.
* Index out of bounds, `unwrap`/`expect` of `None`, slicing out of range and division by zero are the
  outcome `Panic`.
* A `&mut self` method is a function returning the new state. Mutable histories are lists of operations.
  A loop without evident structural measure has fuel, running out of fuel being a distinct outcome that proofs exclude.
* Threads are labelled transition systems: `step` is a function of the state and of a label naming the process and its inputs (event, time),
  an execution is a list of labels, and theorems are for every execution from the initial state, that is for every interleaving.
  Channels are queues (crossbeam, unbounded or bounded as in the code); blocking is the absence of step.
* I/O errors of the writers aren't modelled: writers always succeed. The written output is a list of
  commands (moves, printed texts with their style...). Failures of the reading are modelled in questions.
* The terminal isn't in the repository, so it isn't modelled but specified: "columns" are sums of the widths given by the oracle, `S_Paint` says what each command
  does to a grid of cells with a cursor and a style, `S_Read` what can be read there, `S_Paper` how a terminal of a given size wraps and scrolls.

## Trusted base

* Coq's kernel (and its `vm_compute` for the concrete examples and refutations).
* No axiom: `Print Assumptions` says "Closed under the global context" for each of the theorems of the manifest.
  `coqchk` also lists, as being in the context, the axioms of `Coq.ssr.ssrunder` (`Under_rel.*`), a file of the standard library loaded by
  `lia`'s dependencies; no theorem uses them.
* The correspondence between the Rust source and the model, documented in the comments of each definition.
* The specifications of what the commands do in a terminal: grid of cells (`S_Paint`), wrap and scroll (`S_Paper`), cursor and columns (`S_Input`, `S_Render`, `S_List`), and the style in use (`S_Pen`, after crossterm's
  `PrintStyledContent`: colors then attributes before the text; after it, everything is reset if there are attributes, or else the colors which were set).

## What is modelled

| Source | Model | Simplifications |
|---|---|---|
| `views/pos.rs`, `views/input_field_content.rs` | `M_Content` | all functions; positions and texts as lists of lines |
| `views/input_field.rs` | `M_Input` | all functions; `display` without flush |
| `views/text_view.rs`, `views/mad_view.rs`, `area.rs` | `M_View` | the rendering of a line is a parameter (instantiated with `M_Render`); f64 pages exactly, in `M_F64`; the size of the terminal is a parameter |
| `views/list_view.rs` | `M_List` | closures are functions |
| `views/progress.rs` | `M_Progress` | f32 exactly |
| `compound_style.rs`, `styled_char.rs`, `line_style.rs`, `color.rs`, `scrollbar_style.rs`, `table_border_chars.rs`, styles of `skin.rs` | `M_Style` | the blend of two colors (coolor) is a parameter |
| `fit/str_fit.rs`, `fit/crop_writer.rs`, `fit/filling.rs`, `spacing.rs` | `M_Fit` | |
| `fit/tbl_fit.rs` | `M_TblFit` | |
| `composite.rs`, `tokens.rs`, `fit/wrap.rs` | `M_Wrap` | |
| `fit/composite_fit.rs` | `M_Fitter` | |
| `line.rs`, `tbl.rs`, `code.rs`, `text.rs` | `M_Text` | from the parsed lines |
| writing of lines and composites in `skin.rs`, `inline.rs`, `displayable_line.rs` | `M_Render` | the special chars are a function |
| `area_text`, `write_in_area_on`, `term_text`, `print_text` of `skin.rs`, `MadView::write_on`, `terminal_size` | `M_Area` | the text is already parsed; the size told by crossterm is a parameter |
| `rect.rs` | `M_Rect` | |
| `parse/*.rs` | `M_Parse`, `M_Regex` | one matcher for each regular expression, proved equal to the patterns of the source under a backtracking semantics (C78); classes of chars of regex as a parameter |
| `serde/*.rs` | `M_Serde` | documents as trees |
| `events/event_source.rs`, `escape_sequence.rs`, `timed_event.rs` | `M_Event` | the combiner of crokey is a quantified state machine |
| `events/tick_beam.rs` | `M_Tick` | time is a natural number |
| `examples/scrollable`, `examples/inputs` | `M_Scrollable`, `M_Inputs` | the event loops over the views; entering and leaving the terminal's modes left out, the answers of the clipboard quantified, the drawing of `inputs` left out |
| `ask.rs` | `M_Ask`, `M_Prompt` | printed texts as a trace, then rendered; minimad's templates given by their compounds, the debug form of a rejected input quantified |

Not modelled: minimad (parsing of Markdown, templates), crossterm (raw mode, encoding of the commands), crokey's combiner and key names,
coolor's color conversions, the regex engine (its documented semantics is in `M_Regex`), the formats of serde, the clipboard, the scheduling of the OS, memory.
The one line wrappers of `lib.rs` and `skin.rs` which only print or flush (`print_inline`, `write_inline`...), and the inline macros (templates of minimad), aren't modelled.

