(** * The unit tests of the repository, run on the model

    These are tests of the faithfulness of the model, not proofs: each assertion of the tests of src/fit, of
    src/views/input_field_content.rs, computed on the model. The tests of src/parse and src/serde are in [P_Parse]
    ([C51_repo_tests], [C52_repo_tests]) and [P_Serde] ([test_skin], [C54_rich_example]). The markdown texts are
    parsed by hand, minimad not being modelled; the two char functions give what the crate unicode-width gives for
    the chars of those tests. *)
From Coq Require Import Ascii String.
From Verif Require Import Base M_Style M_Fit M_Wrap M_Content M_TblFit M_Text M_Fitter M_Parse Demo.
Open Scope list_scope.
Open Scope nat_scope.

Definition repo_w (c : char) : nat :=
  if ((768 <=? c) && (c <=? 879) || (1155 <=? c) && (c <=? 1161) || (c =? 8203))%N then 0
  else if ((65281 <=? c) && (c <=? 65376))%N then 2 else demo_w c.
Definition repo : unicode := {| chw := repo_w; strw := sumw repo_w; is_white := is_white demo; is_alnum := is_alnum demo |}.

Definition plain (s : str) := mkCompound s false false false false.
Definition strong (s : str) := mkCompound s true false false false.
Definition emph (s : str) := mkCompound s false true false false.
Definition inline_code (s : str) := mkCompound s false false true false.

(** ** src/fit/str_fit.rs:98-122 *)
Definition c12 : str := [67; 111; 109; 117; 110; 105; 99; 97; 231; 245; 101; 115]%N.
Definition c14 : str := [67; 111; 109; 117; 110; 105; 99; 97; 99; 807; 111; 771; 101; 115]%N.
Definition ja : str := [27010; 35201]%N.
Example test_count_fitting :
  count_fitting repo (lit "test") 3 = (3, 3) /\ count_fitting repo (lit "test") 5 = (4, 4)
  /\ sum (map len_utf8 c12) = 14 /\ List.length c12 = 12
  /\ map (count_fitting repo c12) [12; 10; 11] = [(14, 12); (12, 10); (13, 11)]
  /\ sum (map len_utf8 c14) = 16 /\ List.length c14 = 14 /\ count_fitting repo c14 12 = (16, 12)
  /\ sum (map len_utf8 ja) = 6 /\ List.length ja = 2
  /\ map (count_fitting repo ja) [1; 2; 3; 4; 5] = [(0, 0); (3, 2); (3, 2); (6, 4); (6, 4)].
Proof. vm_compute. repeat split. Qed.

(** ** src/fit/wrap.rs:159-279 *)
Definition text_of (ls : list MComposite) (w : nat) : list FmtLine :=
  match from_text repo skin_default 1000 (map MNormal ls) (Some w) with Ret t => txt_lines t | _ => [] end.
(** [visible_fmt_line_length], src/fit/wrap.rs:169-174 *)
Definition len_of (l : FmtLine) : nat :=
  match l with Normal fc => visible_composite_length repo skin_default (fc_kind fc) (fc_compounds fc) | _ => 0 end.
Definition wrap_src : list MComposite :=
  [ mkMC MParagraph [plain (lit "This is a "); emph (lit "long"); plain (lit " line which needs to be "); strong (lit "broken"); plain (lit ".")];
    mkMC MParagraph [plain (lit "And the text goes on with a list:")];
    mkMC (MListItem 0) [plain (lit "short item")];
    mkMC (MListItem 0) [plain (lit "a "); emph (lit "somewhat longer item"); plain (lit " (with a part in "); strong (lit "bold"); plain (lit ")")] ].
Example check_hard_wrapping_simple_text :
  forallb (fun w => let t := text_of wrap_src w in (0 <? List.length t) && forallb (fun l => (len_of l <=? w) && (0 <? len_of l)) t) (seq 3 47) = true
  /\ map len_of (text_of wrap_src 25) = [25; 19; 25; 7; 12; 25; 23].
Proof. vm_compute. repeat split. Qed.
Example check_space_removing :
  (o <- hard_wrap_composite repo skin_default (fc_from repo skin_default (mkMC MParagraph [plain (lit "syntax coloring")])) 8 ;; Ret (option_map (@List.length _) o)) = Ret (Some 2).
Proof. vm_compute. reflexivity. Qed.
Definition issue_17 : list MComposite :=
  [mkMC MParagraph [emph (lit "Now I'll describe this example with more words than necessary, in order to be sure to demonstrate scrolling (and "); mkCompound (lit "wrapping") true true false false; emph (lit ", too, thanks to long sentences).")]].
Example check_issue_17 :
  let t := text_of issue_17 120 in
  List.length t = 2 /\ match nth_error t 1 with Some (Normal fc) => hd_error (fc_compounds fc) | _ => None end = Some (mkCompound (lit "wrapping") true true false false).
Proof. vm_compute. repeat split. Qed.
Definition zalgo : str := [90; 65; 864; 801; 842; 861; 76; 71; 908; 32; 73; 83; 878; 770; 1161; 815; 840; 853; 825; 792; 817; 32; 84; 60; 47; 98; 62; 79; 837; 839; 825; 826; 413; 820; 563; 819; 32; 84; 72; 792; 60; 98; 62; 69; 836; 777; 854; 32; 864; 80; 815; 845; 813; 79; 794; 8203; 78; 784; 89; 801; 32; 72; 872; 842; 829; 773; 830; 782; 801; 824; 810; 815; 69; 830; 859; 874; 836; 768; 769; 807; 856; 812; 809; 32; 871; 830; 876; 807; 822; 808; 817; 825; 813; 815; 67; 877; 783; 869; 878; 863; 823; 793; 818; 797; 854; 79; 878; 847; 814; 810; 797; 845]%N.
Example check_issue_23 :
  forallb (fun w => match from_text repo skin_default 1000 [MNormal (mkMC MParagraph [plain zalgo])] (Some w) with Ret _ => true | _ => false end) (seq 40 20) = true.
Proof. vm_compute. reflexivity. Qed.

(** ** src/fit/composite_fit.rs:334-388 *)
Definition check_fit (cs : list Compound) (w : nat) : bool :=
  forallb (fun a => match fit repo (for_align a) (fc_from repo skin_default (mkMC MParagraph cs)) w skin_default with
                    | Ret fc => visible_length fc <=? w | _ => false end) [ARight; ALeft; Center; Unspecified].
Example test_fit :
  let sentence := [plain (lit "This sentence has "); strong (lit "short"); plain (lit " and "); strong (lit "much longer"); plain (lit " parts, and some Korean: "); emph [19968; 26352; 36947; 65292; 20108; 26352; 22825]%N; plain (lit ".")] in
  let five_issues := [plain [19968; 26352; 36947; 65292; 20108; 26352; 22825; 65292; 19977; 26352; 22320; 65292; 22235; 26352; 23559; 65292; 20116; 26352; 27861; 12290]%N] in
  let status := [plain (lit "ab "); emph (lit "cd"); plain (lit " "); inline_code (lit "12345 123456789")] in
  (check_fit sentence 60 && check_fit sentence 40 && check_fit five_issues 15 && check_fit five_issues 8 && check_fit status 17 && check_fit status 2)%bool = true.
Proof. vm_compute. reflexivity. Qed.

(** ** src/views/input_field_content.rs:666-755 *)
Definition nl (l : list string) : str := match map lit l with [] => [] | a :: r => a ++ flat_map (fun s => 10%N :: s) r end.
Example test_char_iterator :
  map (fun t => c <- content_from t ;; is_str c t) [nl ["this has"; "three lines"; ""]%string; []; nl ["123"]%string; nl [""; ""; ""]%string] = repeat (Ret true) 4.
Proof. vm_compute. reflexivity. Qed.
(** [make_content]: the cursor given by its column *)
Definition make_content (value : string) (x : nat) : outcome content := c <- content_from (lit value) ;; Ret (set_cpos c (mkPos 0 x)).
Example test_new_line :
  (c <- make_content "12345" 2 ;; insert_char c 54) = make_content "126345" 3
  /\ (c <- make_content "126345" 3 ;; c <- insert_new_line c ;; is_str c (nl ["126"; "345"]%string)) = Ret true
  /\ (c <- insert_char content_default 49 ;; c <- insert_char c 50 ;; c <- insert_new_line c ;; c <- insert_char c 51 ;; c <- insert_char c 52 ;; is_str c (nl ["12"; "34"]%string)) = Ret true.
Proof. vm_compute. repeat split. Qed.
Definition del_word (m : outcome content) : outcome content := c <- m ;; r <- del_word_right repo c ;; Ret (fst r).
Example test_del_word_right :
  del_word (make_content "aaa bbb ccc" 5) = make_content "aaa bccc" 5
  /\ del_word (make_content "aaa bccc" 5) = make_content "aaa b" 4
  /\ del_word (make_content "aaa b" 4) = make_content "aaa " 3
  /\ del_word (make_content "aaa " 3) = make_content "aaa" 3
  /\ del_word (make_content "aaa" 3) = make_content "aaa" 2
  /\ del_word (make_content "aaa" 2) = make_content "aa" 1
  /\ del_word (make_content "aa" 1) = make_content "a" 0
  /\ del_word (make_content "a" 0) = make_content "" 0
  /\ del_word (make_content "" 0) = make_content "" 0.
Proof. vm_compute. repeat split. Qed.
Example test_select_clear_del_selection :
  (c <- make_content "aaa bbb ccc" 5 ;; e <- content_end c ;; c <- set_selection_tail c e ;; r <- del_selection (clear c) ;; Ret (clines (fst r))) = Ret [[]].
Proof. vm_compute. reflexivity. Qed.
Example test_select_del_char_left_del_selection :
  (c <- make_content "aaa bbb ccc" 5 ;; e <- content_end c ;; c <- set_selection_tail c e ;; r <- del_char_left c ;; r <- del_selection (fst r) ;; Ret (clines (fst r))) = Ret [lit "aaa "].
Proof. vm_compute. reflexivity. Qed.
