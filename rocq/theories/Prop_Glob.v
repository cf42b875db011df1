(** C61: exclude patterns follow the manual.  The structure of patterns and
    what they match is specified in [Pattern]. *)
From Verif Require Import GlobProofs FSDec.
From stdpp Require Import options.

(** ** C61 Exclude patterns follow the manual.
    The program's set has exactly the entries of the directory that a pattern
    of the file matches, and everything below them.
    Partial: the path of the directory itself must not contain wildcards
    ([C61_root_refuted]), "**" must be a component by itself
    ([C61_double_star_refuted]), a hidden name needs an unbracketed dot
    ([C61_dot_refuted]) and patterns are not looked for in hidden directories
    ([C61_hidden_refuted]).  A link without target stops the program
    ([C61_dangling_refuted]). *)
Definition no_wildcards (S : path) : Prop := Forall (λ x, ∀ c, c ∈ x → c ∉ lit "*?[") S.
Lemma no_wildcards_spec S : no_wildcards S ↔ existsb has_magic S = false.
Proof.
  assert (∀ c, magic_char c = true ↔ c ∈ lit "*?[") as Hc.
  { intros c. unfold magic_char. rewrite !orb_true_iff, !N.eqb_eq. change (lit "*?[") with [c_star; c_quest; c_open]. rewrite !elem_of_cons, elem_of_nil. tauto. }
  unfold no_wildcards. induction S as [|x S IH]; [done|]. cbn [existsb]. rewrite Forall_cons, orb_false_iff, IH. apply and_iff_compat_r.
  unfold has_magic. rewrite <-not_true_iff_false, existsb_exists. split.
  - intros H (c & Hin & Hm). apply elem_of_list_In in Hin. apply Hc in Hm. by eapply H.
  - intros H c Hin Hm. apply H. exists c. split; [by apply elem_of_list_In|by apply Hc].
Qed.
Theorem C61_patterns_partial m S ls X : wf_fs m → dir_at m S → no_wildcards S → Forall wf_line ls →
  all_matches m S (show_file ls) = Ok X →
  ∀ p n, m !! (S ++ p) = Some n →
    p ∈ X ↔ ∃ ws pt ws' q, Pattern ws pt ws' ∈ ls ∧ q `prefix_of` p ∧ matches m S pt q.
Proof.
  intros Hwf HS HM Hls HX p n Hn. apply no_wildcards_spec in HM.
  rewrite (all_matches_spec m Hwf S HS HM ls X Hls HX p n).
  - naive_solver.
  - destruct (decide (S ++ p = [])) as [E|E]; [rewrite E in Hn; by rewrite (wf_nil m Hwf) in Hn|]. by rewrite node_at_ne.
Qed.
Print Assumptions C61_patterns_partial.
(** Without links in the directory the matching always succeeds. *)
Theorem C61_no_links m S ls : wf_fs m → dir_at m S → no_wildcards S → Forall wf_line ls →
  (∀ p t k, m !! (S ++ p) ≠ Some (Link t k)) → ∃ X, all_matches m S (show_file ls) = Ok X.
Proof. intros Hwf HS HM%no_wildcards_spec Hls Hl. by apply all_matches_total. Qed.
Print Assumptions C61_no_links.

(** ** Examples *)
Definition g1 (s : String.string) : path := [lit s].
#[global] Arguments g1 _%string_scope.
Definition chars (s : String.string) : list item := map Char (lit s).
#[global] Arguments chars _%string_scope.
Definition exTree : fs := list_to_map
  [(g1 "h", Dir 1); (g1 "h" ++ g1 "d", Dir 1); (g1 "h" ++ g1 "d" ++ g1 "a.o", File (lit "1") 2); (g1 "h" ++ g1 "d" ++ g1 "e", Dir 2);
   (g1 "h" ++ g1 "d" ++ g1 "e" ++ g1 "b.o", File (lit "2") 2); (g1 "h" ++ g1 "d" ++ g1 "e" ++ g1 "tmp", Dir 2);
   (g1 "h" ++ g1 "d" ++ g1 "e" ++ g1 "tmp" ++ g1 ".z", File [] 2); (g1 "h" ++ g1 "tmp", File [] 3);
   (g1 "h" ++ g1 "x1", File [] 3); (g1 "h" ++ g1 "a1", File [] 3); (g1 "h" ++ g1 ".1", File [] 3)]%Z.
(** The file is
<<
# objects
/d/*.o
  tmp/
/[!a-c]?

>>  *)
Definition exFile : list pline :=
  [Comment [] (lit " objects"); Pattern [] (Pat true [Name (chars "d"); Name (Star :: chars ".o")] false) [];
   Pattern (lit "  ") (Pat false [Name (chars "tmp")] true) []; Pattern [] (Pat true [Name [Brackets true false [Range 97 99]; Any]] false) [];
   Blank (lit " ")]%N.
Lemma exTree_wf : wf_fs exTree.
Proof. apply (bool_decide_unpack _). vm_compute. exact Logic.I. Qed.
Lemma exFile_wf : Forall wf_line exFile.
Proof.
  repeat apply Forall_cons_2; try apply Forall_nil_2.
  - split; [constructor|]. vm_compute. set_solver.
  - split; [constructor|]. split; [|constructor]. split; [done|]. split; [|split; [done|done]].
    repeat apply Forall_cons_2; try apply Forall_nil_2; (split; [|vm_compute; set_solver]); repeat apply Forall_cons_2; try apply Forall_nil_2; try exact Logic.I; (split; [vm_compute; set_solver|done]).
  - split; [by repeat constructor|]. split; [|constructor]. split; [done|]. split; [|split; [done|done]].
    repeat apply Forall_cons_2; try apply Forall_nil_2; (split; [|vm_compute; set_solver]); repeat apply Forall_cons_2; try apply Forall_nil_2; try exact Logic.I; (split; [vm_compute; set_solver|done]).
  - split; [constructor|]. split; [|constructor]. split; [done|]. split; [|split; [done|done]].
    repeat apply Forall_cons_2; try apply Forall_nil_2. split; [|vm_compute; set_solver]. repeat apply Forall_cons_2; try apply Forall_nil_2; try exact Logic.I.
    split; [|split; [done|done]]. repeat apply Forall_cons_2; try apply Forall_nil_2. split; [split; [vm_compute; set_solver|done]|]. split; [split; [vm_compute; set_solver|done]|done].
  - by repeat constructor.
Qed.
Lemma ok_is {A} `{EqDecision A} (r : res A) (x : A) : (match r with Ok y => bool_decide (y = x) | Err _ => false end) = true → r = Ok x.
Proof. destruct r; [|done]. by intros ->%bool_decide_eq_true_1. Qed.
Example C61_example : wf_fs exTree ∧ dir_at exTree (g1 "h") ∧ no_wildcards (g1 "h") ∧ Forall wf_line exFile
  ∧ all_matches exTree (g1 "h") (show_file exFile) = Ok
      {[g1 "d" ++ g1 "a.o"; g1 "d" ++ g1 "e" ++ g1 "tmp"; g1 "d" ++ g1 "e" ++ g1 "tmp" ++ g1 ".z"; g1 "x1"]}.
Proof.
  split; [apply exTree_wf|]. split; [by exists 1%Z|]. split; [by apply no_wildcards_spec|]. split; [apply exFile_wf|]. apply ok_is. vm_compute. reflexivity.
Qed.

(** ** Where the program does not follow the manual *)
(** The manual: "Patterns starting with a slash match file paths relative to
    the root of the sync directory."  With brackets in the name of that
    directory nothing is excluded. *)
Definition gTree (root : String.string) (l : list (path * node)) : fs := list_to_map ((g1 root, Dir 1%Z) :: map (λ pn, (g1 root ++ pn.1, pn.2)) l).
#[global] Arguments gTree _%string_scope _.
Theorem C61_root_refuted : ∃ m S pt p n, wf_fs m ∧ dir_at m S ∧ (∀ q t k, m !! q ≠ Some (Link t k)) ∧ wf_pat pt ∧ m !! (S ++ p) = Some n ∧ matches m S pt p
  ∧ all_matches m S (show_file [Pattern [] pt []]) = Ok ∅.
Proof.
  exists (gTree "[h]" [(g1 "x", File [] 2%Z)]), (g1 "[h]"), (Pat true [Name (chars "x")] false), (g1 "x"), (File [] 2%Z).
  split; [apply (bool_decide_unpack _); vm_compute; exact Logic.I|]. split; [by exists 1%Z|]. split.
  { intros q t k H. apply elem_of_list_to_map_2 in H. apply elem_of_cons in H as [[=]|H]. apply elem_of_list_fmap in H as (pn & [= -> Hn] & [= ->]%elem_of_list_singleton). done. }
  split.
  { split; [done|]. split; [|done]. repeat constructor; [vm_compute; set_solver|done|vm_compute; set_solver]. }
  split; [vm_compute; reflexivity|]. split; [|vm_compute; reflexivity].
  split; [|done]. apply (ld_name _ _ [] (chars "x") (lit "x") []); [|constructor]. split; [repeat constructor|done].
Qed.
Print Assumptions C61_root_refuted.
(** A link without target that a pattern matches: the program does not get any
    further.  The program itself leaves such a link when another client deletes
    the remote file. *)
Theorem C61_dangling_refuted : ∃ m S pt p t k, wf_fs m ∧ dir_at m S ∧ no_wildcards S ∧ wf_pat pt ∧ m !! (S ++ p) = Some (Link t k)
  ∧ all_matches m S (show_file [Pattern [] pt []]) = Err FileNotFound.
Proof.
  exists (gTree "h" [(g1 "x", Link (lit "/r/x") 2%Z)]), (g1 "h"), (Pat false [Name (chars "x")] false), (g1 "x"), (lit "/r/x"), 2%Z.
  split; [apply (bool_decide_unpack _); vm_compute; exact Logic.I|]. split; [by exists 1%Z|]. split; [by apply no_wildcards_spec|]. split.
  { split; [done|]. split; [|done]. repeat constructor; [vm_compute; set_solver|done|vm_compute; set_solver]. }
  split; vm_compute; reflexivity.
Qed.
Print Assumptions C61_dangling_refuted.
(** The manual: "Patterns not starting with a slash match the ends of file
    paths anywhere in the tree."  Not in hidden directories. *)
Theorem C61_hidden_refuted : ∃ m S name d X, wf_fs m ∧ dir_at m S ∧ no_wildcards S ∧ wf_pat (Pat false [Name (map Char name)] false)
  ∧ is_Some (m !! (S ++ d ++ [name])) ∧ all_matches m S (show_file [Pattern [] (Pat false [Name (map Char name)] false) []]) = Ok X ∧ d ++ [name] ∉ X.
Proof.
  exists (gTree "h" [(g1 ".d", Dir 2%Z); (g1 ".d" ++ g1 "x", File [] 2%Z)]), (g1 "h"), (lit "x"), (g1 ".d"), ∅.
  split; [apply (bool_decide_unpack _); vm_compute; exact Logic.I|]. split; [by exists 1%Z|]. split; [by apply no_wildcards_spec|]. split.
  { split; [done|]. split; [|done]. repeat constructor; [vm_compute; set_solver|done|vm_compute; set_solver]. }
  split; [vm_compute; by eexists|]. split; [vm_compute; reflexivity|]. set_solver.
Qed.
Print Assumptions C61_hidden_refuted.
(** The manual: "A double asterisk '**' matches anything, including slashes." *)
Theorem C61_double_star_refuted : ∃ m S X, wf_fs m ∧ dir_at m S ∧ no_wildcards S
  ∧ is_Some (m !! (S ++ path_comps (lit "a1/2b"))) ∧ all_matches m S (lit "/a**b") = Ok X ∧ path_comps (lit "a1/2b") ∉ X.
Proof.
  exists (gTree "h" [(g1 "a1", Dir 2%Z); (g1 "a1" ++ g1 "2b", File [] 2%Z)]), (g1 "h"), ∅.
  split; [apply (bool_decide_unpack _); vm_compute; exact Logic.I|]. split; [by exists 1%Z|]. split; [by apply no_wildcards_spec|].
  split; [vm_compute; by eexists|]. split; [vm_compute; reflexivity|]. set_solver.
Qed.
Print Assumptions C61_double_star_refuted.
(** The manual: "File names starting with a dot '.' (hidden files) are not
    matched unless the pattern explicitly includes a dot." *)
Theorem C61_dot_refuted : ∃ m S X, wf_fs m ∧ dir_at m S ∧ no_wildcards S
  ∧ is_Some (m !! (S ++ g1 ".x")) ∧ all_matches m S (lit "/[.]x") = Ok X ∧ g1 ".x" ∉ X.
Proof.
  exists (gTree "h" [(g1 ".x", File [] 2%Z)]), (g1 "h"), ∅.
  split; [apply (bool_decide_unpack _); vm_compute; exact Logic.I|]. split; [by exists 1%Z|]. split; [by apply no_wildcards_spec|].
  split; [vm_compute; by eexists|]. split; [vm_compute; reflexivity|]. set_solver.
Qed.
Print Assumptions C61_dot_refuted.
