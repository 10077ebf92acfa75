(** * The application of the example [scrollable]: examples/scrollable/main.rs *)
From Verif Require Import Base M_Style M_Fit M_Wrap M_TblFit M_Text M_View M_Render M_Area M_Content M_Input M_Event.
Set Implicit Arguments.

(** What [event::read] gives ([None] being an error), and what the terminal tells of its size when asked then *)
Definition read_event : Type := (option TermEvent * option (N * N))%type.
(** examples/scrollable/main.rs:25-29 *)
Definition view_area (size : option (N * N)) : outcome Area := pad_for_max_width (full_screen size) 120.
Section App.
Context {A : Type} (render : A -> nat -> outcome (list cmd)).
(** The application waits for an event, or has left its loop *)
Inductive app_state := Waiting (v : MadView A) | Left (v : MadView A).
(** The match of examples/scrollable/main.rs:40-55: the new view and what is queued, or [None] for the [break] *)
Definition app_react (v : MadView A) (r : read_event) : outcome (option (MadView A * list cmd)) :=
  match fst r with
  | Some (TKey key) =>
      match k_code key with
      | KUp => v' <- mv_try_scroll_lines v (-1) ;; Ret (Some (v', []))
      | KDown => v' <- mv_try_scroll_lines v 1 ;; Ret (Some (v', []))
      | KPageUp => v' <- mv_try_scroll_pages v (-1) ;; Ret (Some (v', []))
      | KPageDown => v' <- mv_try_scroll_pages v 1 ;; Ret (Some (v', []))
      | _ => Ret None
      end
  | Some (TResize _ _) => a <- view_area (snd r) ;; Ret (Some (mv_resize v a, [ClearAll]))
  | _ => Ret (Some (v, []))
  end.
(** The loop of examples/scrollable/main.rs:37-56, with what is written. The writes are taken as never failing. *)
Fixpoint app_loop (v : MadView A) (reads : list read_event) : outcome (app_state * list cmd) :=
  out <- mv_write_on render v ;;
  match reads with
  | [] => Ret (Waiting v, out)
  | r :: rest =>
      next <- app_react v r ;;
      match next with
      | None => Ret (Left v, out)
      | Some (v', cleared) => '(st, o) <- app_loop v' rest ;; Ret (st, out ++ cleared ++ o)
      end
  end.
(** examples/scrollable/main.rs:31-62, between the alternate screen being entered and it being left; [text w] are the lines of the markdown formatted for a width, as in M_View *)
Definition run_app (text : N -> list A) (skin : MadSkin) (size : option (N * N)) (reads : list read_event) : outcome (app_state * list cmd) :=
  a <- view_area size ;; app_loop (mv_from text a skin) reads.
End App.
