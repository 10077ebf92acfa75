(** * C85: a skin which is saved and loaded again and again *)
From Coq Require Import Ascii String Permutation.
From Verif Require Import Base L_Base Demo M_Style M_Fit M_Render M_Parse S_Parse L_Parse P_Parse M_Serde S_Serde P_Serde S_Settle.
Set Implicit Arguments.
Open Scope list_scope.

Lemma reread_settles k cs : ascii_classes k -> valid_cs cs -> faithful_cs (reread_cs cs) /\ valid_cs (reread_cs cs).
Proof.
  intros K V. destruct (@C52_stable k cs K V) as (cs' & E & W & F & _). rewrite C52_exact in E by assumption.
  injection E as <-. auto.
Qed.

Lemma reread_ls_settles k ls : ascii_classes k -> valid_cs (ls_cs ls) -> faithful_ls (reread_ls ls) /\ valid_cs (ls_cs (reread_ls ls)).
Proof.
  intros K V. destruct (@reread_settles k _ K V) as (F & W). split; [|exact W]. split; [exact F|].
  unfold reread_ls, reread_margin. cbn [left_margin right_margin].
  split; destruct (N.of_nat _ <? 65536)%N eqn:E; lia.
Qed.

Lemma reread_char_printable k c : ascii_classes k -> printable k (reread_char k 42 c).
Proof.
  intros K. unfold reread_char. destruct (_ || _) eqn:E; [apply star_printable; exact K|].
  unfold printable, ascii_digit. destruct (rx_space k c); [discriminate|]. lia.
Qed.

Lemma reread_sc_settles k sc : ascii_classes k -> valid_cs (sc_style sc) ->
  faithful_sc k (reread_sc k 42 sc) /\ valid_cs (sc_style (reread_sc k 42 sc)).
Proof.
  intros K V. destruct (@reread_settles k _ K V) as (F & W). split; [|exact W].
  split; [exact F|]. split; [apply reread_char_printable; exact K|reflexivity].
Qed.

Lemma simple_or sb : simple_sb sb \/ ~ simple_sb sb.
Proof.
  pose proof (simple_dec sb) as X. destruct (_ && _); [left; apply X; reflexivity | right; intros H; apply X in H; discriminate].
Qed.

(** A simple scrollbar settles at once *)
Lemma reread_simple_settles k sb : ascii_classes k -> valid_cs (sc_style (track sb)) -> valid_cs (sc_style (thumb sb)) ->
  faithful_sb k (reread_sb_simple k sb)
  /\ valid_cs (sc_style (track (reread_sb_simple k sb))) /\ valid_cs (sc_style (thumb (reread_sb_simple k sb))).
Proof.
  intros K (A & _) (B & _). unfold reread_sb_simple. cbv zeta.
  destruct (@reread_settles k (mkCS (fg (sc_style (thumb sb))) (fg (sc_style (track sb))) None 0) K) as (F & (W1 & W2)); [split; assumption|].
  set (cs := reread_cs _) in *. clearbody cs.
  assert (X : ~ In (match fg cs with Some x => x | None => AnsiValue 253 end) lost_colors).
  { destruct (fg cs) as [x|] eqn:E; [apply (ff_fg F E)|]. cbn. intuition discriminate. }
  assert (Y : ~ In (match bg cs with Some x => x | None => AnsiValue 237 end) lost_colors).
  { destruct (bg cs) as [x|] eqn:E; [apply (ff_bg F E)|]. cbn. intuition discriminate. }
  split; [|split].
  - right. exists (match fg cs with Some x => x | None => AnsiValue 253 end), (match bg cs with Some x => x | None => AnsiValue 237 end),
      (reread_char k 42 (sc_char (track sb))).
    split; [reflexivity|]. split; [exact X|]. split; [exact Y|]. apply reread_char_printable; exact K.
  - split; [|exact I]. cbn. destruct (bg cs); [exact W2|cbn; lia].
  - split; [|exact I]. cbn. destruct (fg cs); [exact W1|cbn; lia].
Qed.

Lemma reread_valid k s s' : ascii_classes k -> valid_skin s -> reread_skin k s s' -> valid_skin s'.
Proof.
  intros K V R. destruct V, R.
  assert (CS : forall a b, a = reread_cs b -> valid_cs b -> valid_cs a).
  { intros a b -> W. apply (@reread_settles k b K W). }
  assert (LS : forall a b, a = reread_ls b -> valid_cs (ls_cs b) -> valid_cs (ls_cs a)).
  { intros a b -> W. apply (@reread_ls_settles k b K W). }
  assert (SC : forall a b, a = reread_sc k 42 b -> valid_cs (sc_style b) -> valid_cs (sc_style a)).
  { intros a b -> W. apply (@reread_sc_settles k b K W). }
  assert (SB : valid_cs (sc_style (track (scrollbar s'))) /\ valid_cs (sc_style (thumb (scrollbar s')))).
  { destruct (simple_or (scrollbar s)) as [D|D].
    - rewrite (r_simple D). apply (@reread_simple_settles k _ K); assumption.
    - rewrite (r_rich D). split; [apply (SC _ (track (scrollbar s))) | apply (SC _ (thumb (scrollbar s)))]; auto. }
  split; eauto; try tauto.
  - intros h I. rewrite r_headers in I. apply in_map_iff in I. destruct I as (x & <- & I). eapply LS; [reflexivity|auto].
  - rewrite r_headers, map_length. exact v_headers_length.
Qed.

(** Everything but a scrollbar which wasn't simple is faithful after being read once *)
Lemma reread_faithful_skin k s s' : ascii_classes k -> valid_skin s -> reread_skin k s s' ->
  faithful_sb k (scrollbar s') -> faithful_skin k s'.
Proof.
  intros K V R FS. destruct V, R.
  assert (CS : forall a b, a = reread_cs b -> valid_cs b -> faithful_cs a).
  { intros a b -> W. apply (@reread_settles k b K W). }
  assert (LS : forall a b, a = reread_ls b -> valid_cs (ls_cs b) -> faithful_ls a).
  { intros a b -> W. apply (@reread_ls_settles k b K W). }
  assert (SC : forall a b, a = reread_sc k 42 b -> valid_cs (sc_style b) -> faithful_sc k a).
  { intros a b -> W. apply (@reread_sc_settles k b K W). }
  split; eauto.
  - intros h I. rewrite r_headers in I. apply in_map_iff in I. destruct I as (x & <- & I). eapply LS; [reflexivity|auto].
  - assert (D : In (table_border_chars s) known_borders \/ ~ In (table_border_chars s) known_borders).
    { pose proof (tbc_key_spec (table_border_chars s)) as T. destruct (tbc_key (table_border_chars s)); [left; apply T|right; exact T]. }
    destruct D as [D|D]; [rewrite (r_borders D); exact D|]. rewrite (r_other_borders D). left. reflexivity.
Qed.

Lemma reload_entries k a b : reload k a b <-> exists l, Permutation (entries_of (ser_skin a)) l /\ de_skin k (VMap l) = Some b.
Proof.
  split.
  - intros (es & l & E & P & D). exists l. rewrite E. auto.
  - intros (l & P & D). exists (entries_of (ser_skin a)), l. repeat split; assumption.
Qed.

Lemma reload_reread k a b : ascii_classes k -> valid_skin (fst a) -> reload k a b ->
  snd b = [] /\ reread_skin k (fst a) (fst b) /\ valid_skin (fst b).
Proof.
  intros K V L. apply reload_entries in L. destruct L as (l & P & E). destruct (@C54_exact k a l K V P) as (s' & E' & R). rewrite E' in E. injection E as <-.
  split; [reflexivity|]. split; [exact R|]. apply (@reread_valid k _ _ K V R).
Qed.

Lemma settled_faithful k b : ascii_classes k -> valid_skin (fst b) -> snd b = [] ->
  settled k b <-> faithful_skin k (fst b).
Proof.
  intros K V S. split.
  - intros (L & _). apply reload_entries in L. destruct L as (l & P & E). apply (@C54_read_back_partial k b l K V P) in E. apply E.
  - intros F. split.
    + apply reload_entries. exists (entries_of (ser_skin b)). split; [reflexivity|]. apply (@C54_read_back_partial k b _ K V (Permutation_refl _)). auto.
    + intros c L. apply reload_entries in L. destruct L as (l & P & E). assert (X : de_skin k (VMap l) = Some b) by (apply (@C54_read_back_partial k b l K V P); auto). congruence.
Qed.

Lemma reread_det k s t t' : reread_skin k s t -> reread_skin k s t' -> t = t'.
Proof.
  intros A B.
  assert (SB : scrollbar t = scrollbar t').
  { destruct (simple_or (scrollbar s)) as [D|D].
    - rewrite (r_simple A D), (r_simple B D). reflexivity.
    - rewrite (r_rich A D), (r_rich B D). reflexivity. }
  assert (TB : table_border_chars t = table_border_chars t').
  { pose proof (tbc_key_spec (table_border_chars s)) as T. destruct (tbc_key (table_border_chars s)).
    - rewrite (r_borders A), (r_borders B) by apply T. reflexivity.
    - rewrite (r_other_borders A T), (r_other_borders B T). reflexivity. }
  destruct A, B. apply skin_ext; congruence.
Qed.

(** A skin can always be saved then loaded, and the order of the entries of the file doesn't matter *)
Theorem C85_loaded k a : ascii_classes k -> valid_skin (fst a) ->
  exists b, reload k a b /\ valid_skin (fst b) /\ forall c, reload k a c -> c = b.
Proof.
  intros K V. destruct (@C54_exact k a _ K V (Permutation_refl _)) as (s' & E & R). exists (s', []).
  split; [apply reload_entries; exists (entries_of (ser_skin a)); split; [reflexivity|exact E]|].
  split; [apply (@reread_valid k _ _ K V R)|].
  intros (t, sp) L. destruct (reload_reread K V L) as (A & B & _). cbn [fst snd] in *. subst sp. f_equal.
  apply (reread_det B R).
Qed.

(** The skin which is loaded is settled, except when the rich scrollbar of the saved one was read as a simple one *)
Theorem C85_once_partial k a b : ascii_classes k -> valid_skin (fst a) -> reload k a b ->
  simple_sb (scrollbar (fst a)) \/ ~ simple_sb (scrollbar (fst b)) -> settled k b.
Proof.
  intros K V L D. destruct (reload_reread K V L) as (S & R & W). apply settled_faithful; [exact K|exact W|exact S|].
  apply (@reread_faithful_skin k _ _ K V R). destruct (simple_or (scrollbar (fst a))) as [X|X].
  - rewrite (r_simple R X). apply reread_simple_settles; [exact K| |]; apply V.
  - destruct D as [D|D]; [contradiction|]. left. split; [exact D|]. rewrite (r_rich R X). cbn [reread_sb_rich track thumb].
    split; apply reread_sc_settles; try exact K; apply V.
Qed.

(** Exactly when it's settled *)
Theorem C85_exact k a b : ascii_classes k -> valid_skin (fst a) -> reload k a b ->
  settled k b <-> faithful_sb k (scrollbar (fst b)).
Proof.
  intros K V L. destruct (reload_reread K V L) as (S & R & W). rewrite settled_faithful by assumption. split.
  - intros F. apply F.
  - apply (@reread_faithful_skin k _ _ K V R).
Qed.

(** After the second time, a skin is settled, whatever the first one *)
Theorem C85_twice k a b c : ascii_classes k -> valid_skin (fst a) -> reload k a b -> reload k b c -> settled k c.
Proof.
  intros K V L M. destruct (reload_reread K V L) as (S & R & W).
  destruct (simple_or (scrollbar (fst b))) as [X|X].
  - apply (@C85_once_partial k b c K W M). left. exact X.
  - assert (T : settled k b) by (apply (@C85_once_partial k a b K V L); right; exact X).
    rewrite (proj2 T c M). exact T.
Qed.

Definition no_bg_sb : ScrollBarStyle :=
  mkSB (sc_new (mkCS (Some Red) (Some Reset) None 0) 9616) (sc_new (mkCS (Some Green) (Some Reset) None (attrs_set 0 Bold)) 9616).
Definition once_skin : FullSkin := (k_scrollbar skin_default no_bg_sb, []).
Definition once_read : FullSkin := (k_scrollbar skin_default
  (mkSB (sc_new (mkCS (Some Red) None None 0) 9616) (sc_new (mkCS (Some Green) None None (attrs_set 0 Bold)) 9616)), []).
Definition twice_read : FullSkin := (k_scrollbar skin_default (mkSB (sc_from_fg_char Red 9616) (sc_from_fg_char Green 9616)), []).

(** One isn't enough: the backgrounds of this scrollbar aren't printed, so that it's read as a rich one without them, which
    is then saved as a simple one: the bold is kept the first time and lost the second one. *)
Theorem C85_once_refuted : exists k a b c, ascii_classes k /\ valid_skin (fst a) /\ reload k a b /\ reload k b c /\ b <> c.
Proof.
  exists demo_classes, once_skin, once_read, twice_read. split; [exact demo_ascii|]. split.
  - split; try (split; exact I); try reflexivity; try (split; cbn; try exact I; lia).
    intros h J. cbn in J. repeat (destruct J as [<-|J]; [split; cbn; try exact I; lia|]). destruct J.
  - split; [apply reload_entries; exists (entries_of (ser_skin once_skin)); split; [reflexivity|vm_compute; reflexivity]|].
    split; [apply reload_entries; exists (entries_of (ser_skin once_read)); split; [reflexivity|vm_compute; reflexivity]|]. discriminate.
Qed.
(** This skin settles the second time *)
Example C85_example : settled demo_classes twice_read.
Proof.
  apply (@C85_twice demo_classes once_skin once_read twice_read); [exact demo_ascii| | |].
  - split; try (split; exact I); try reflexivity; try (split; cbn; try exact I; lia).
    intros h J. cbn in J. repeat (destruct J as [<-|J]; [split; cbn; try exact I; lia|]). destruct J.
  - apply reload_entries; exists (entries_of (ser_skin once_skin)); split; [reflexivity|vm_compute; reflexivity].
  - apply reload_entries; exists (entries_of (ser_skin once_read)); split; [reflexivity|vm_compute; reflexivity].
Qed.

Print Assumptions C85_loaded.
Print Assumptions C85_once_partial.
Print Assumptions C85_exact.
Print Assumptions C85_twice.
Print Assumptions C85_once_refuted.
