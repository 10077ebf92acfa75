(** * Model of src/serde/*.rs and of the keys of src/table_border_chars.rs: the serialization of skins

    A serialized value is the tree given to the serializer: texts, sequences and maps. The formats (JSON, TOML...) aren't
    modelled: they're supposed to give back this tree, with the entries of maps in any order. *)
From Coq Require Import Ascii String.
From Verif Require Import Base M_Style M_Parse.
Set Implicit Arguments.
Open Scope list_scope.

Inductive value := VStr (s : str) | VSeq (l : list value) | VMap (l : list (str * value)).

(** An error of deserialization; its text isn't modelled *)
Definition de (A : Type) := option A.
Definition of_result {A E} (r : result A E) : de A := match r with Ok a => Some a | Err _ => None end.
(** [String::deserialize] *)
Definition de_string (v : value) : de str := match v with VStr s => Some s | _ => None end.

(** src/serde/serde_compound_style.rs:14-31 *)
Definition de_cs (k : classes) (v : value) : de CStyle :=
  obind (de_string v) (fun s => of_result (parse_compound_style k s)).
Definition ser_cs (cs : CStyle) : value := VStr (cs_string cs).
(** src/serde/serde_line_style.rs:14-31 *)
Definition de_ls (k : classes) (v : value) : de LStyle :=
  obind (de_string v) (fun s => of_result (parse_line_style k s)).
Definition ser_ls (ls : LStyle) : value := VStr (ls_string ls).
(** src/serde/serde_styled_char.rs:14-31; the default char is a star *)
Definition de_sc (k : classes) (v : value) : de StyledChar :=
  obind (de_string v) (fun s => of_result (parse_styled_char k s 42)).
Definition ser_sc (sc : StyledChar) : value := VStr (sc_string sc).

Fixpoint all_some {A B} (f : A -> de B) (l : list A) : de (list B) :=
  match l with
  | [] => Some []
  | a :: r => obind (f a) (fun b => obind (all_some f r) (fun bs => Some (b :: bs)))
  end.

Fixpoint str_eqb (a b : str) : bool :=
  match a, b with
  | [], [] => true
  | x :: a', y :: b' => (x =? y)%N && str_eqb a' b'
  | _, _ => false
  end.
(** the only value of a key: a derived [Deserialize] rejects duplicate fields and ignores unknown ones *)
Definition field (key : str) (l : list (str * value)) : de value :=
  match filter (fun e => str_eqb key (fst e)) l with
  | [(_, v)] => Some v
  | _ => None
  end.

(** ** Scrollbars *)

(** src/serde/serde_scrollbar_style.rs:18-27 *)
Inductive ScrollBarStyleDef := Simple (sc : StyledChar) | Rich (track thumb : StyledChar).
(** src/serde/serde_scrollbar_style.rs:29-46 *)
Definition sb_def (sb : ScrollBarStyle) : ScrollBarStyleDef :=
  if (sc_char (track sb) =? sc_char (thumb sb))%N
     && negb (is_some (bg (sc_style (track sb)))) && negb (is_some (bg (sc_style (thumb sb))))
  then Simple (sc_new (cs_new (fg (sc_style (thumb sb))) (fg (sc_style (track sb))) 0) (sc_char (track sb)))
  else Rich (track sb) (thumb sb).
(** src/serde/serde_scrollbar_style.rs:48-55 *)
Definition into_scrollbar_style (d : ScrollBarStyleDef) : ScrollBarStyle :=
  match d with
  | Simple sc => sb_from_sc sc
  | Rich track thumb => mkSB track thumb
  end.
(** The derived implementations, for an untagged enum: src/serde/serde_scrollbar_style.rs:18-19 *)
Definition ser_sb_def (d : ScrollBarStyleDef) : value :=
  match d with
  | Simple sc => ser_sc sc
  | Rich track thumb => VMap [(lit "track", ser_sc track); (lit "thumb", ser_sc thumb)]
  end.
Definition de_sb_def (k : classes) (v : value) : de ScrollBarStyleDef :=
  match de_sc k v with
  | Some sc => Some (Simple sc)
  | None =>
      match v with
      | VMap l =>
          obind (field (lit "track") l) (fun a => obind (de_sc k a) (fun track =>
          obind (field (lit "thumb") l) (fun b => obind (de_sc k b) (fun thumb => Some (Rich track thumb)))))
      | _ => None
      end
  end.

(** ** Table borders *)

Definition tbc_eqb (a b : TableBorderChars) : bool :=
  (horizontal a =? horizontal b)%N && (vertical a =? vertical b)%N
  && (top_left_corner a =? top_left_corner b)%N && (top_right_corner a =? top_right_corner b)%N
  && (bottom_right_corner a =? bottom_right_corner b)%N && (bottom_left_corner a =? bottom_left_corner b)%N
  && (top_junction a =? top_junction b)%N && (right_junction a =? right_junction b)%N
  && (bottom_junction a =? bottom_junction b)%N && (left_junction a =? left_junction b)%N && (cross a =? cross b)%N.
(** src/table_border_chars.rs:21-31 *)
Definition tbc_key (t : TableBorderChars) : option str :=
  if tbc_eqb t STANDARD_TBC then Some (lit "standard")
  else if tbc_eqb t ASCII_TBC then Some (lit "ascii")
  else if tbc_eqb t ROUNDED_TBC then Some (lit "rounded")
  else None.
(** src/table_border_chars.rs:32-39 *)
Definition tbc_by_key (key : str) : option TableBorderChars :=
  if str_eqb key (lit "standard") then Some STANDARD_TBC
  else if str_eqb key (lit "ascii") then Some ASCII_TBC
  else if str_eqb key (lit "rounded") then Some ROUNDED_TBC
  else None.

(** ** Headers *)

(** src/serde/serde_skin.rs:207-212 *)
Inductive HeadersStyleInfo := Add (ls : LStyle) | Levels (l : list LStyle).
(** derived, untagged *)
Definition de_headers (k : classes) (v : value) : de HeadersStyleInfo :=
  match de_ls k v with
  | Some ls => Some (Add ls)
  | None => match v with VSeq l => option_map Levels (all_some (de_ls k) l) | _ => None end
  end.
(** src/serde/serde_skin.rs:113-130, on one header *)
Definition header_add (ls h : LStyle) : LStyle :=
  let c0 := ls_cs h in
  let c1 := match fg (ls_cs ls) with Some f => cs_set_fg c0 f | None => c0 end in
  let c2 := match bg (ls_cs ls) with Some b => cs_set_bg c1 b | None => c1 end in
  let c3 := fold_left cs_add_attr (filter (cs_has_attr (ls_cs ls)) ATTRIBUTES) c2 in
  mkLS c3 (match ls_align ls with Unspecified => ls_align h | a => a end) (left_margin h) (right_margin h).
(** src/serde/serde_skin.rs:131-137: the extra levels are ignored *)
Fixpoint set_levels (headers levels : list LStyle) : list LStyle :=
  match headers, levels with
  | h :: hs, l :: ls => l :: set_levels hs ls
  | _, _ => headers
  end.
Definition headers_apply (info : HeadersStyleInfo) (headers : list LStyle) : list LStyle :=
  match info with
  | Add ls => map (header_add ls) headers
  | Levels l => set_levels headers l
  end.

(** ** Skins *)

(** A skin with its [special_chars] (src/skin.rs:53-59), given as a list *)
Definition FullSkin : Type := MadSkin * list (Compound * StyledChar).

(** src/serde/serde_skin.rs:166-205 *)
Definition ser_skin (full : FullSkin) : value :=
  let k := fst full in
  VMap ([ (lit "bold", ser_cs (bold k)); (lit "italic", ser_cs (italic k)); (lit "strikeout", ser_cs (strikeout k));
          (lit "inline_code", ser_cs (inline_code k)); (lit "ellipsis", ser_cs (ellipsis k));
          (lit "bullet", ser_sc (bullet k)); (lit "quote", ser_sc (quote_mark k));
          (lit "horizontal_rule", ser_sc (horizontal_rule k));
          (lit "scrollbar", ser_sb_def (sb_def (scrollbar k)));
          (lit "paragraph", ser_ls (paragraph k)); (lit "code_block", ser_ls (code_block k)); (lit "table", ser_ls (table k));
          (lit "headers", VSeq (map ser_ls (headers k))) ]
        ++ match tbc_key (table_border_chars k) with
           | Some key => [(lit "table_border_chars", VStr key)]
           | None => []
           end).

(** The fields which are set one by one *)
Definition k_bold k x := mkSkin (paragraph k) x (italic k) (strikeout k) (inline_code k) (code_block k) (headers k) (scrollbar k)
  (table k) (bullet k) (quote_mark k) (horizontal_rule k) (ellipsis k) (table_border_chars k) (indent_mode k).
Definition k_italic k x := mkSkin (paragraph k) (bold k) x (strikeout k) (inline_code k) (code_block k) (headers k) (scrollbar k)
  (table k) (bullet k) (quote_mark k) (horizontal_rule k) (ellipsis k) (table_border_chars k) (indent_mode k).
Definition k_strikeout k x := mkSkin (paragraph k) (bold k) (italic k) x (inline_code k) (code_block k) (headers k) (scrollbar k)
  (table k) (bullet k) (quote_mark k) (horizontal_rule k) (ellipsis k) (table_border_chars k) (indent_mode k).
Definition k_inline_code k x := mkSkin (paragraph k) (bold k) (italic k) (strikeout k) x (code_block k) (headers k) (scrollbar k)
  (table k) (bullet k) (quote_mark k) (horizontal_rule k) (ellipsis k) (table_border_chars k) (indent_mode k).
Definition k_ellipsis k x := mkSkin (paragraph k) (bold k) (italic k) (strikeout k) (inline_code k) (code_block k) (headers k)
  (scrollbar k) (table k) (bullet k) (quote_mark k) (horizontal_rule k) x (table_border_chars k) (indent_mode k).
Definition k_bullet k x := mkSkin (paragraph k) (bold k) (italic k) (strikeout k) (inline_code k) (code_block k) (headers k)
  (scrollbar k) (table k) x (quote_mark k) (horizontal_rule k) (ellipsis k) (table_border_chars k) (indent_mode k).
Definition k_quote_mark k x := mkSkin (paragraph k) (bold k) (italic k) (strikeout k) (inline_code k) (code_block k) (headers k)
  (scrollbar k) (table k) (bullet k) x (horizontal_rule k) (ellipsis k) (table_border_chars k) (indent_mode k).
Definition k_rule k x := mkSkin (paragraph k) (bold k) (italic k) (strikeout k) (inline_code k) (code_block k) (headers k)
  (scrollbar k) (table k) (bullet k) (quote_mark k) x (ellipsis k) (table_border_chars k) (indent_mode k).
Definition k_scrollbar k x := mkSkin (paragraph k) (bold k) (italic k) (strikeout k) (inline_code k) (code_block k) (headers k)
  x (table k) (bullet k) (quote_mark k) (horizontal_rule k) (ellipsis k) (table_border_chars k) (indent_mode k).
Definition k_paragraph k x := mkSkin x (bold k) (italic k) (strikeout k) (inline_code k) (code_block k) (headers k) (scrollbar k)
  (table k) (bullet k) (quote_mark k) (horizontal_rule k) (ellipsis k) (table_border_chars k) (indent_mode k).
Definition k_code_block k x := mkSkin (paragraph k) (bold k) (italic k) (strikeout k) (inline_code k) x (headers k) (scrollbar k)
  (table k) (bullet k) (quote_mark k) (horizontal_rule k) (ellipsis k) (table_border_chars k) (indent_mode k).
Definition k_table k x := mkSkin (paragraph k) (bold k) (italic k) (strikeout k) (inline_code k) (code_block k) (headers k)
  (scrollbar k) x (bullet k) (quote_mark k) (horizontal_rule k) (ellipsis k) (table_border_chars k) (indent_mode k).
Definition k_tbc k x := mkSkin (paragraph k) (bold k) (italic k) (strikeout k) (inline_code k) (code_block k) (headers k)
  (scrollbar k) (table k) (bullet k) (quote_mark k) (horizontal_rule k) (ellipsis k) x (indent_mode k).

Definition is_key (key : str) (names : list string) : bool := existsb (fun n => str_eqb key (lit n)) names.

(** One turn of the loop of [visit_map]: src/serde/serde_skin.rs:42-157 *)
Definition de_entry (k : classes) (skin : MadSkin) (key : str) (v : value) : de MadSkin :=
  if is_key key ["bold"%string] then option_map (k_bold skin) (de_cs k v)
  else if is_key key ["italic"%string] then option_map (k_italic skin) (de_cs k v)
  else if is_key key ["strikeout"%string] then option_map (k_strikeout skin) (de_cs k v)
  else if is_key key ["inline_code"; "inline-code"]%string then option_map (k_inline_code skin) (de_cs k v)
  else if is_key key ["ellipsis"%string] then option_map (k_ellipsis skin) (de_cs k v)
  else if is_key key ["bullet"%string] then option_map (k_bullet skin) (de_sc k v)
  else if is_key key ["quote_mark"; "quote"; "quote-mark"]%string then option_map (k_quote_mark skin) (de_sc k v)
  else if is_key key ["horizontal_rule"; "horizontal-rule"; "rule"]%string then option_map (k_rule skin) (de_sc k v)
  else if is_key key ["scrollbar"%string] then
    option_map (fun d => k_scrollbar skin (into_scrollbar_style d)) (de_sb_def k v)
  else if is_key key ["paragraph"%string] then option_map (k_paragraph skin) (de_ls k v)
  else if is_key key ["code_block"; "code-block"]%string then option_map (k_code_block skin) (de_ls k v)
  else if is_key key ["table"%string] then option_map (k_table skin) (de_ls k v)
  else if is_key key ["headers"%string] then
    option_map (fun i => set_headers skin (headers_apply i (headers skin))) (de_headers k v)
  else if is_key key ["table_border_chars"; "table-border-chars"]%string then
    option_map (fun s => match tbc_by_key s with Some c => k_tbc skin c | None => skin end) (de_string v)
  else option_map (fun _ => skin) (de_string v).

(** src/serde/serde_skin.rs:37-159 *)
Fixpoint de_entries (k : classes) (skin : MadSkin) (l : list (str * value)) : de MadSkin :=
  match l with
  | [] => Some skin
  | (key, v) :: r => obind (de_entry k skin key v) (fun skin' => de_entries k skin' r)
  end.
Definition de_skin (k : classes) (v : value) : de FullSkin :=
  match v with
  | VMap l => option_map (fun s => (s, [])) (de_entries k skin_default l)
  | _ => None
  end.

(** ** The other skins of src/skin.rs *)

Definition map_nth {A} (n : nat) (f : A -> A) (l : list A) : list A :=
  match nth_error l n with Some a => set_nth n (f a) l | None => l end.
(** src/skin.rs:139-147 *)
Definition skin_default_dark : MadSkin :=
  let k := k_code_block skin_default (ls_set_fgbg (code_block skin_default) (gray 20) (gray 5)) in
  let k := k_inline_code k (cs_set_fgbg (inline_code k) (gray 20) (gray 5)) in
  set_headers k (map_nth 2 (fun h => ls_set_fg h (gray 20)) (map_nth 1 (fun h => ls_set_fg h (gray 21))
    (map_nth 0 (fun h => ls_set_fg h (gray 22)) (headers k)))).
(** src/skin.rs:154-162 *)
Definition skin_default_light : MadSkin :=
  let k := k_code_block skin_default (ls_set_fgbg (code_block skin_default) (gray 3) (gray 20)) in
  let k := k_inline_code k (cs_set_fgbg (inline_code k) (gray 4) (gray 20)) in
  set_headers k (map_nth 2 (fun h => ls_set_fg h (gray 4)) (map_nth 1 (fun h => ls_set_fg h (gray 2))
    (map_nth 0 (fun h => ls_set_fg h (gray 0)) (headers k)))).
