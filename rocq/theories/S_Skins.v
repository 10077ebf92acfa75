(** * Vocabulary for the ready-made skins: what the parts of a text look like *)
From Verif Require Import Base M_Style M_Serde.
Set Implicit Arguments.
Open Scope nat_scope.

(** The three skins which have colors: for any terminal, for dark ones, for light ones *)
Inductive theme := Neutral | Dark | Light.
Definition skin_of (t : theme) : MadSkin :=
  match t with Neutral => skin_default | Dark => skin_default_dark | Light => skin_default_light end.
(** The 24 levels of gray of the 256 colors of a terminal, 0 being nearly black, and 23 nearly white *)
Definition level (n : N) : Color := AnsiValue (232 + n).

(** The look of the chars of a text: the gray levels of the foreground and of the background, if they're set, and the attributes *)
Record looks := mkLooks { ink : option N; paper : option N; marks : Attribute -> bool }.
Definition has_looks (cs : CStyle) (l : looks) : Prop :=
  fg cs = option_map level (ink l) /\ bg cs = option_map level (paper l) /\ underline cs = None /\ forall a, cs_has_attr cs a = marks l a.

(** Code in a line, and blocks of code: foreground, background *)
Definition inline_levels (t : theme) : N * N := match t with Neutral => (17, 3)%N | Dark => (20, 5)%N | Light => (4, 20)%N end.
Definition block_levels (t : theme) : N * N := match t with Neutral => (17, 3)%N | Dark => (20, 5)%N | Light => (3, 20)%N end.
(** The titles: only the first three levels have a color *)
Definition title_level (t : theme) (level : nat) : option N :=
  match t, level with
  | Dark, 1 => Some 22%N | Dark, 2 => Some 21%N | Dark, 3 => Some 20%N
  | Light, 1 => Some 0%N | Light, 2 => Some 2%N | Light, 3 => Some 4%N
  | _, _ => None
  end.
(** The level of a title, up to 8, the following ones being written as paragraphs *)
Definition title (kind : CompositeKind) : option nat := match kind with KHeader n => if n <=? 8 then Some n else None | _ => None end.
Definition first_title (kind : CompositeKind) : bool := match title kind with Some 1 => true | _ => false end.

(** The look of the chars with some flags (bold, italic, code, strikeout) in some kind of line *)
Definition text_looks (t : theme) (kind : CompositeKind) (f : bool * bool * bool * bool) : looks :=
  match f with (b, i, c, s) =>
    let attributes a :=
      match a with
      | Bold => b || first_title kind | Italic => i | CrossedOut => s
      | Underlined => match title kind with Some _ => true | None => false end
      | _ => false
      end%bool in
    if c then mkLooks (Some (fst (inline_levels t))) (Some (snd (inline_levels t))) attributes
    else match kind with
      | KCode => mkLooks (Some (fst (block_levels t))) (Some (snd (block_levels t))) attributes
      | _ => mkLooks (match title kind with Some n => title_level t n | None => None end) None attributes
      end
  end.
Definition no_marks (a : Attribute) : bool := false.
Definition only_bold (a : Attribute) : bool := match a with Bold => true | _ => false end.

(** A style which can be read: just levels of gray, and when there's a background there's a foreground, at least 14 levels away *)
Definition readable (cs : CStyle) : Prop :=
  (fg cs = None \/ exists n, (n <= 23)%N /\ fg cs = Some (level n))
  /\ match bg cs with
     | None => True
     | Some c => exists n m, (m <= 23)%N /\ (n <= 23)%N /\ c = level m /\ fg cs = Some (level n) /\ (m + 14 <= n \/ n + 14 <= m)%N
     end.
