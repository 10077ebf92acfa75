(** * C78: the texts of styles are read with the regular expressions of the source *)
From Coq Require Import Ascii String.
From Verif Require Import Base L_Base M_Style M_Parse S_Parse M_Regex S_Regex L_Regex.
Set Implicit Arguments.
Open Scope list_scope.
Open Scope nat_scope.

Definition ascii_only : classes :=
  mkClasses (fun c => ((9 <=? c)%N && (c <=? 13)%N) || (c =? 32)%N)
    (fun c => ((97 <=? c)%N && (c <=? 122)%N) || ((65 <=? c)%N && (c <=? 90)%N) || is_ascii_digit c || (c =? 95)%N) is_ascii_digit.
Lemma ascii_only_ok : ascii_classes ascii_only /\ disjoint_classes ascii_only.
Proof.
  split; [constructor; intros c _; cbn; unfold is_ascii_digit, ascii_space, ascii_digit, ascii_letter; split; intros H; lia|].
  intros c. cbn. unfold is_ascii_digit. lia.
Qed.

(** ** The semantics of the regular expressions *)

(** What's found is a match, it starts at the first place where there's one, and what isn't found doesn't exist *)
Theorem C78_leftmost k i r s : proper r = true ->
  match rx_find k i r s with
  | Some (a, m, rest, _) => s = a ++ m ++ rest /\ (exists b', matches k i r (is_nil a) (m ++ rest) b' rest)
      /\ (forall x y, s = x ++ y -> List.length x < List.length a -> forall b' t, ~ matches k i r (is_nil x) y b' t)
  | None => forall x y, s = x ++ y -> forall b' t, ~ matches k i r (is_nil x) y b' t
  end.
Proof.
  intros Pr. pose proof (@find_leftmost k i r Pr s true []) as H. unfold rx_find. destruct (find_at k i r true [] s) as [[[[a m] rest] cs]|]; [|exact H].
  destruct H as (sk & -> & E & M & F). cbn. split; [exact E|]. split; [exact M|exact F].
Qed.
Print Assumptions C78_leftmost.
Example C78_leftmost_example : proper (rx "gr[ae]y(?:scale)?") = true
  /\ rx_find ascii_only true (rx "gr[ae]y(?:scale)?") (lit "a GrEyscale") = Some (lit "a ", lit "GrEyscale", [], [])
  /\ rx_find ascii_only true (rx "^gr[ae]y(?:scale)?") (lit "a GrEyscale") = None.
Proof. repeat split; vm_compute; reflexivity. Qed.

(** the ends of the matches at a given place are those of the declarative definition *)
Theorem C78_matches k i r b s b' t : proper r = true ->
  (matches k i r b s b' t <-> exists cs, In (mkSt b' t cs) (run k i r (mkSt b s []))).
Proof.
  intros Pr. split; [intros M; apply run_complete; assumption|]. intros (cs & H). apply run_sound in H; [exact H|exact Pr].
Qed.
Print Assumptions C78_matches.
Example C78_matches_example : map after (run ascii_only false (rx "a{1,2}[ab]*") (mkSt true (lit "aab") [])) = [[]; lit "b"; []; lit "b"; lit "ab"].
Proof. vm_compute. reflexivity. Qed.

(** all the patterns of the source are in the domain of these two theorems *)
Definition patterns : list string :=
  ["^ansi\((?<value>\d+)\)$"; "^gr[ae]y(?:scale)?\((?<level>\d+)\)$"; "^rgb\((?<r>\d+),\s*(?<g>\d+),\s*(?<b>\d+)\)$";
   "^#(?<r>[\da-f]{1,2})(?<g>[\da-f]{1,2})(?<b>[\da-f]{1,2})$"; "black"; "crossed[_-]?out"; "[^\s()]+(\([\w,\s]+\))?"]%string.
Example C78_patterns_example : forallb (fun p => proper (rx p)) patterns = true.
Proof. vm_compute. reflexivity. Qed.

(** ** The parsing functions *)
Lemma is_match_name k p : forallb (fun c => (97 <=? c)%N && (c <=? 122)%N) (lit p) = true -> flatten (rx p) = lits (lit p) -> forall s, rx_is_match k true (rx p) s = ci_contains (lit p) s.
Proof. intros H E. apply is_match_lits; [exact E|]. apply Forall_forall. intros c Hc. rewrite forallb_forall in H. specialize (H c Hc). lia. Qed.
Lemma is_match_two k r p q : forallb (fun c => (97 <=? c)%N && (c <=? 122)%N) (lit p ++ lit q) = true -> flatten (rx r) = lits (lit p) ++ sep :: lits (lit q) -> forall s,
  rx_is_match k true (rx r) s = ci_contains (lit p ++ lit q) s || (ci_contains (lit p ++ 95%N :: lit q) s || ci_contains (lit p ++ 45%N :: lit q) s).
Proof.
  intros H E. apply is_match_sep; [exact E| |]; apply Forall_forall; intros c Hc; rewrite forallb_forall in H; specialize (H c); rewrite in_app_iff in H; specialize (H ltac:(auto)); lia.
Qed.
Ltac name := rewrite is_match_name; [|vm_compute; reflexivity|vm_compute; reflexivity].
Ltac orif := match goal with |- context [if ?a || (?b || ?c) then ?x else ?y] => replace (if a || (b || c) then x else y) with (if a then x else if b then x else if c then x else y)
               by (destruct a, b, c; reflexivity) end.

(** A color is what the four forms capture or the first name which is found *)
Theorem C78_color k s : ascii_classes k -> disjoint_classes k -> parse_color k s = rx_parse_color k s.
Proof.
  intros K D. unfold rx_parse_color, parse_color, rx_ansi.
  rewrite (@captures_call k (rx "^ansi\((?<value>\d+)\)$") (lit "ansi(") (lit "value") s K) by (nu || (vm_compute; reflexivity)).
  destruct (rx_call k (lit "ansi(") s) as [v|]; [reflexivity|]. cbn [option_map].
  rewrite (@captures_grey k (rx "^gr[ae]y(?:scale)?\((?<level>\d+)\)$") s K) by (vm_compute; reflexivity).
  destruct (rx_grey k s) as [v|]; [reflexivity|]. cbn [option_map].
  rewrite (@captures_rgb k (rx "^rgb\((?<r>\d+),\s*(?<g>\d+),\s*(?<b>\d+)\)$") s K D) by (vm_compute; reflexivity).
  destruct (rx_rgb k s) as [[[r g] b]|]; [reflexivity|]. cbn [option_map].
  rewrite (@captures_hex k (rx "^#(?<r>[\da-f]{1,2})(?<g>[\da-f]{1,2})(?<b>[\da-f]{1,2})$") s K) by (vm_compute; reflexivity).
  destruct (rx_hex k s) as [[[r g] b]|]; [reflexivity|]. cbn [option_map]. unfold color_names. cbn [first_contained].
  do 15 name. repeat match goal with |- context [if ci_contains ?p s then _ else _] => destruct (ci_contains p s); [reflexivity|] end. reflexivity.
Qed.
Print Assumptions C78_color.
Example C78_color_example : rx_parse_color ascii_only (lit "RGB(1,  20,3)") = Ok (rgb 1 20 3) /\ rx_parse_color ascii_only (lit "#0fA") = Ok (rgb 0 255 170)
  /\ rx_parse_color ascii_only (lit "GrayScale(24)") = Err (InvalidGreyLevel 24) /\ rx_parse_color ascii_only (lit "darkblue") = Ok Blue.
Proof. vm_compute. repeat split. Qed.

Theorem C78_attribute k s : parse_attribute s = rx_parse_attribute k s.
Proof.
  unfold rx_parse_attribute, parse_attribute, attribute_names. cbn [first_contained].

  rewrite (@is_match_two k "crossed[_-]?out" "crossed" "out"), (@is_match_two k "under[_-]?lined" "under" "lined"), (@is_match_two k "over[_-]?lined" "over" "lined"),
    (@is_match_two k "slow[_-]?blink" "slow" "blink"), (@is_match_two k "rapid[_-]?blink" "rapid" "blink") by (vm_compute; reflexivity).
  repeat name. repeat orif.
  repeat match goal with |- (if ci_contains ?p s then _ else _) = _ => change (ci_contains p s) with (ci_contains p s); destruct (ci_contains p s) eqn:?; [reflexivity|] end. reflexivity.
Qed.
Print Assumptions C78_attribute.
Example C78_attribute_example : rx_parse_attribute ascii_only (lit "a CROSSED-outx") = Some CrossedOut /\ rx_parse_attribute ascii_only (lit "crossed--out") = None.
Proof. vm_compute. repeat split. Qed.

Theorem C78_align k s : parse_align s = rx_parse_align k s.
Proof. unfold rx_parse_align, parse_align. cbn [first_contained]. do 3 name. reflexivity. Qed.
Print Assumptions C78_align.
Example C78_align_example : rx_parse_align ascii_only (lit "brightcenter") = Some Center.
Proof. vm_compute. reflexivity. Qed.

Theorem C78_token k s : ascii_classes k -> disjoint_classes k -> parse_style_token k s = rx_parse_style_token k s.
Proof.
  intros K D. unfold parse_style_token, rx_parse_style_token. name. destruct (ci_contains (lit "none") s); [reflexivity|]. destruct (parse_u16 s); [reflexivity|].
  rewrite <- (C78_color s K D), <- (C78_attribute k s), <- (C78_align k s). destruct (parse_color k s) as [c|[|l]]; try reflexivity.
Qed.
Print Assumptions C78_token.
Example C78_token_example : rx_parse_style_token ascii_only (lit "+12") = Ok (TDimension 12) /\ rx_parse_style_token ascii_only (lit "x") = Ok (TChar 120)
  /\ rx_parse_style_token ascii_only (lit "") = Err UnrecognizedToken.
Proof. vm_compute. repeat split. Qed.

(** The tokens of a style are the successive matches of the pattern of the source *)
Theorem C78_tokens k s : ascii_classes k -> disjoint_classes k -> parse_style_tokens k s = rx_parse_style_tokens k s.
Proof.
  intros K D. unfold parse_style_tokens, rx_parse_style_tokens, find_tokens.
  rewrite (@tokens_found k (rx "[^\s()]+(\([\w,\s]+\))?") K) with (n := List.length s) (f' := List.length s) by (lia || (vm_compute; reflexivity)).
  generalize (find_iter k (List.length s) s) as l. induction l as [|t l IH]; [reflexivity|]. cbn [all_ok]. rewrite (C78_token t K D), IH. reflexivity.
Qed.
Print Assumptions C78_tokens.
Example C78_tokens_example : rx_parse_style_tokens ascii_only (lit "rgb(1, 2, 3)bold (x) ansi(4) 12") = Ok [TColor (rgb 1 2 3); TAttribute Bold; TChar 120; TColor (ansi 4); TDimension 12].
Proof. vm_compute. reflexivity. Qed.
