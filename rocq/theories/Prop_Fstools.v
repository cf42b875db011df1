(** C19-C23: scanning, copying and linking trees (fstools.py). *)
From Verif Require Import FSDec.
From stdpp Require Import options.

(** ** C19 Tree scan is complete.
    The listed paths are the entries of the tree below [p], each once.  An
    entry below a symbolic link is no entry of the tree ([wf_fs]: everything
    is in a directory), so no link is entered. *)
Theorem C19_scan_complete m p :
  wf_fs m → dir_at m p →
  ∃ l, scan_tree m p = Ok l ∧ NoDup l
    ∧ (∀ q, q ∈ l ↔ below q p ∧ is_Some (m !! q))
    ∧ (∀ q a t k, q ∈ l → m !! a = Some (Link t k) → ¬ below q a).
Proof.
  intros Hwf Hd. destruct (scan_tree_dir m Hwf p Hd) as (l & El & Hnd & Hl). exists l. split; [done|]. split; [done|].
  assert (H : ∀ q, q ∈ l ↔ below q p ∧ is_Some (m !! q)).
  { intros q. rewrite Hl. split.
    - intros (s & k & -> & Hs & Hk). split; [|by eexists]. apply below_root. eauto.
    - intros [Hb [k Hk]]. apply below_root in Hb as (s & Hs & ->). eauto. }
  split; [done|]. intros q a t k Hq Ha (x & r & ->). apply H in Hq as [_ [n Hn]].
  assert (dir_at m a) as [t' Ht].
  { eapply wf_anc; [done|exact Hn|by exists (x :: r)|]. intros E. apply (f_equal length) in E. rewrite app_length in E. simpl in E. lia. }
  destruct (decide (a = [])) as [->|Hne].
  - by destruct (Hwf _ _ Ha) as (? & _).
  - rewrite node_at_ne in Ht by done. congruence.
Qed.
Print Assumptions C19_scan_complete.

(** A source tree, a destination with an old file, a foreign file and a link
    made by the program. *)
Definition ps : path := [lit "s"].
Definition pd : path := [lit "d"].
Definition ex_fs : fs := list_to_map
  [(ps, Dir 1); (ps ++ [lit "a"], Dir 2); (ps ++ [lit "a"; lit "f"], File (lit "new") 7);
   (ps ++ [lit "a"; lit "e"], Dir 3); (ps ++ [lit "g"], File (lit "gg") 8); (ps ++ [lit "h"], File (lit "hh") 9);
   (ps ++ [lit "l"], Link (lit "g") 9);
   (pd, Dir 1); (pd ++ [lit "a"], Dir 4); (pd ++ [lit "a"; lit "f"], File (lit "old") 5);
   (pd ++ [lit "z"], File (lit "zz") 5); (pd ++ [lit "g"], Link (lit "/s/g") 6)]%Z.
Example C19_example :
  wf_fs ex_fs ∧ dir_at ex_fs ps ∧
  ∃ l, scan_tree ex_fs ps = Ok l ∧
  list_to_set (C := gset path) l =
    list_to_set (map (app ps) [[lit "a"]; [lit "a"; lit "f"]; [lit "a"; lit "e"]; [lit "g"]; [lit "h"]; [lit "l"]]).
Proof.
  split; [apply (bool_decide_unpack _); vm_compute; exact I|].
  split; [apply (bool_decide_unpack _); vm_compute; exact I|].
  eexists. split; [vm_compute; reflexivity|]. apply (bool_decide_unpack _). vm_compute. exact I.
Qed.

(** ** C20 Copying a tree is exact.
    [wanted]: what was asked for; [transferable]: the trees are apart and
    nothing of another kind is in the way.  With a progress bar, the wanted
    links must not be dangling. *)
Theorem C20_copy_exact now tty m S D files exclude :
  transferable false m S D files exclude →
  (tty = true → ∀ q, wanted m S files exclude q → exists_ m (S ++ q) = true) →
  let W := wanted m S files exclude in
  let '(_, m', r) := transfer_tree now tty S D files exclude false m in
  r = Ok tt
  ∧ (∀ q, W q → match m !! (S ++ q) with
                | Some (Dir _) => dir_at m' (D ++ q)
                | n => m' !! (D ++ q) = n
                end)
  ∧ (∀ k, ¬ below k D → m' !! k = m !! k)
  ∧ (∀ q, ¬ W q → q ≠ [] → m' !! (D ++ q) = m !! (D ++ q)
       ∨ (m !! (D ++ q) = None ∧ m' !! (D ++ q) = Some (Dir now) ∧ ∃ w, W w ∧ below w q)).
Proof.
  intros T Ht W.
  assert (wp (transfer_tree now tty S D files exclude false) (λ _, True) (λ r m',
    r = Ok tt ∧ ∃ l, ready S D false m l ∧ (∀ q, q ∈ l ↔ W q) ∧ copied now S D false m l m') m) as [_ H].
  { eapply transfer_tree_wp; [done|done|]. intros l R Hl. split_and!; [done..|]. eauto. }
  destruct (transfer_tree now tty S D files exclude false m) as [[tr m'] r]. simpl in H.
  destruct H as (-> & l & R & Hl & C). split; [done|].
  assert (Hdst := cp_dst _ _ _ _ _ _ _ C). split; [|split].
  - intros q Hq. pose proof (wanted_ne _ _ _ _ _ (ta_src _ _ _ _ _ _ T) Hq) as Hne. specialize (Hdst q Hne).
    apply Hl in Hq. pose proof (rd_compat _ _ _ _ _ R q Hq) as Hc. unfold compat in Hc.
    unfold tr_node in Hdst. destruct (m !! (S ++ q)) as [[c t|s t|t]|].
    + by rewrite decide_True in Hdst.
    + by rewrite decide_True in Hdst.
    + rewrite decide_False in Hdst by naive_solver. apply dir_at_lookup; [by destruct D, q|].
      destruct Hc as [[Hn|Hc] _].
      * rewrite Hn, decide_True in Hdst; [by eexists|]. apply Exists_exists. by exists q.
      * apply dir_at_lookup in Hc as [t' Ht']; [|by destruct D, q]. rewrite Ht' in Hdst. eauto.
    + done.
  - intros k Hk. apply (cp_out _ _ _ _ _ _ _ C); [done|]. by intros [? _].
  - intros q Hq Hne. specialize (Hdst q Hne). unfold tr_node in Hdst. rewrite decide_False in Hdst by (rewrite Hl; tauto).
    destruct (m !! (D ++ q)) as [n|]; [by left|]. destruct (decide _) as [He|He]; [|by left].
    right. split; [done|]. split; [done|]. apply Exists_exists in He as (w & Hw & Hp). exists w. split; [by apply Hl|].
    destruct Hp as [k ->]. destruct k as [|x k]; [|by exists x, k]. rewrite app_nil_r in Hw. apply Hl in Hw. tauto.
Qed.
Print Assumptions C20_copy_exact.

Definition show_fs (m : fs) (ks : list path) : list (option node) := (m !!.) <$> ks.
Example C20_example :
  let files := Some [[lit "a"]; [lit "g"]; [lit "l"]] in
  transferable false ex_fs ps pd files ∅ ∧
  (∀ q, wanted ex_fs ps files ∅ q → exists_ ex_fs (ps ++ q) = true) ∧
  let '(_, m', r) := transfer_tree 100 true ps pd files ∅ false ex_fs in
  r = Ok tt ∧
  show_fs m' (map (app pd) [[lit "a"]; [lit "a"; lit "f"]; [lit "a"; lit "e"]; [lit "g"]; [lit "h"]; [lit "l"]; [lit "z"]])
  = [Some (Dir 4); Some (File (lit "new") 7); Some (Dir 100); Some (File (lit "gg") 8); None; Some (Link (lit "g") 9); Some (File (lit "zz") 5)].
Proof.
  intros files. assert (transferable false ex_fs ps pd files ∅) as T.
  { apply transfer_check_ok, (bool_decide_unpack _). vm_compute. exact I. }
  split; [done|]. split; [|vm_compute; done].
  intros q Hq. destruct (to_transfer_spec ex_fs ps files) as (l & El & Hl); [apply T..|]. apply Hl in Hq.
  assert (Forall (λ q, exists_ ex_fs (ps ++ q) = true) l) as Hf.
  { vm_compute in El. injection El as <-. apply (bool_decide_unpack _). vm_compute. exact I. }
  rewrite Forall_forall in Hf. by apply Hf.
Qed.

(** ** C21 Moving a tree never loses a file.
    The states of the run are those that a crash can leave behind. *)
Theorem C21_move_never_loses now tty m S D files exclude :
  transferable true m S D files exclude →
  (tty = true → ∀ q, wanted m S files exclude q → exists_ m (S ++ q) = true) →
  let '(tr, m', r) := transfer_tree now tty S D files exclude true m in
  r = Ok tt
  ∧ (∀ x, x ∈ m :: tr → ∀ q n, m !! (S ++ q) = Some n → is_Dir n = false →
       x !! (S ++ q) = Some n ∨ x !! (D ++ q) = Some n)
  ∧ (∀ q, wanted m S files exclude q → m' !! (S ++ q) = None)
  ∧ (∀ q, ¬ wanted m S files exclude q → m' !! (S ++ q) = m !! (S ++ q)).
Proof.
  intros T Ht.
  set (safe := λ x : fs, ∀ q n, m !! (S ++ q) = Some n → is_Dir n = false → x !! (S ++ q) = Some n ∨ x !! (D ++ q) = Some n).
  assert (Hcop : ∀ X m1, copied now S D true m X m1 → ∀ q n, m !! (S ++ q) = Some n → is_Dir n = false →
    (q ∈ X ∧ m1 !! (D ++ q) = Some n) ∨ (q ∉ X ∧ m1 !! (S ++ q) = Some n)).
  { intros X m1 C q n Hq Hn. destruct (decide (q ∈ X)) as [HX|HX].
    - left. split; [done|]. assert (q ≠ []) as Hne.
      { intros ->. rewrite app_nil_r in Hq. destruct (ta_src _ _ _ _ _ _ T) as [t Ht'].
        destruct (decide (S = [])) as [->|HS]; [by destruct (ta_wf _ _ _ _ _ _ T _ _ Hq)|].
        rewrite node_at_ne, Hq in Ht' by done. injection Ht' as ->. done. }
      rewrite (cp_dst _ _ _ _ _ _ _ C q Hne). unfold tr_node. rewrite decide_True; [done|]. split; [done|]. by rewrite Hq.
    - right. split; [done|]. rewrite (cp_out _ _ _ _ _ _ _ C); [done|apply apart_not_below, (ta_apart _ _ _ _ _ _ T)|].
      intros [_ (q' & Hq' & E)]. apply app_inv_head in E. by subst. }
  assert (wp (transfer_tree now tty S D files exclude true) safe (λ r m',
    r = Ok tt ∧ ∃ l, (∀ q, q ∈ l ↔ wanted m S files exclude q) ∧ copied now S D true m l m') m) as [HI H].
  { eapply transfer_tree_wp; [done|done|]. intros l R Hl. split_and!; [| |by eauto].
    - intros X p Y m1 m2 El C Hm q n Hq Hn.
      assert (p ∉ X) as HpX.
      { intros HX. pose proof (rd_nodup _ _ _ _ _ R) as Hnd. rewrite El in Hnd. apply NoDup_app in Hnd as (_ & Hnd & _). apply (Hnd p HX). left. }
      assert (∀ k, k ≠ D ++ p → m1 !! k = Some n → m2 !! k = Some n) as Hk.
      { intros k Hk Hmk. destruct Hm; unfold made.
        - rewrite lookup_union, Hmk. by destruct (dirmap now _ !! k).
        - rewrite lookup_delete_ne, lookup_union, Hmk by done. by destruct (dirmap now _ !! k).
        - rewrite lookup_insert_ne, lookup_union, Hmk by done. by destruct (dirmap now _ !! k).
        - rewrite lookup_insert_ne, lookup_union, Hmk by done. by destruct (dirmap now _ !! k). }
      destruct (Hcop X m1 C q n Hq Hn) as [[HX Hd]|[HX Hs]].
      + right. apply Hk; [|done]. intros E. apply app_inv_head in E. by subst.
      + left. apply Hk; [|done]. apply apart_ne, (ta_apart _ _ _ _ _ _ T).
    - intros X Y m1 El C q n Hq Hn. destruct (Hcop X m1 C q n Hq Hn) as [[_ ?]|[_ ?]]; auto. }
  destruct (transfer_tree now tty S D files exclude true m) as [[tr m'] r]. simpl in *.
  destruct H as (-> & l & Hl & C). split; [done|]. split; [|split].
  - intros x [->|Hx]%elem_of_cons; [by left|]. rewrite Forall_forall in HI. by apply HI.
  - intros q Hq. apply (cp_src _ _ _ _ _ _ _ C); [done|by apply Hl].
  - intros q Hq. apply (cp_out _ _ _ _ _ _ _ C); [apply apart_not_below, (ta_apart _ _ _ _ _ _ T)|].
    intros [_ (q' & Hq' & E)]. apply app_inv_head in E. subst q'. apply Hl in Hq'. done.
Qed.
Print Assumptions C21_move_never_loses.
Example C21_example :
  transferable true ex_fs ps pd None ∅ ∧
  let '(tr, m', r) := transfer_tree 100 false ps pd None ∅ true ex_fs in
  r = Ok tt ∧ length tr = 23 ∧
  show_fs m' (map (app pd) [[lit "a"; lit "f"]; [lit "a"; lit "e"]; [lit "h"]]) = [Some (File (lit "new") 7); Some (Dir 100); Some (File (lit "hh") 9)]
  ∧ show_fs m' [ps; ps ++ [lit "a"]] = [Some (Dir 1); None].
Proof.
  split; [apply transfer_check_ok, (bool_decide_unpack _); vm_compute; exact I|]. vm_compute. repeat split; reflexivity.
Qed.

(** ** C22 Requested files that are missing are ignored: not true.
    A single missing path ends the transfer with FileNotFoundError before
    anything is copied. *)
Theorem C22_missing_ignored_refuted :
  ∃ m S D files,
    wf_fs m ∧ apart S D ∧ dir_at m S ∧ dir_at m D ∧ (∃ p, p ∈ files ∧ is_Some (m !! (S ++ p)))
    ∧ ∀ now tty, transfer_tree now tty S D (Some files) ∅ false m = ([], m, Err FileNotFound).
Proof.
  exists ex_fs, ps, pd, [[lit "g"]; [lit "gone"]].
  do 4 (split; [apply (bool_decide_unpack _); vm_compute; exact I|]). split.
  - exists [lit "g"]. split; [left|]. vm_compute. eauto.
  - intros now tty. unfold transfer_tree, bind, get, eval.
    replace (exists_ ex_fs ps) with true by (vm_compute; reflexivity).
    replace (to_transfer ex_fs ps (Some [[lit "g"]; [lit "gone"]])) with (@Err (list path) FileNotFound) by (vm_compute; reflexivity).
    reflexivity.
Qed.
Print Assumptions C22_missing_ignored_refuted.
(** What holds: nothing is changed, whatever the other requested paths are. *)
Theorem C22_missing_changes_nothing_partial now tty m S D files exclude rm p :
  wf_fs m → dir_at m S → p ∈ files → p ≠ [] → valid_comps p → dir_at m (parent (S ++ p)) → m !! (S ++ p) = None →
  ∃ e, transfer_tree now tty S D (Some files) exclude rm m = ([], m, Err e).
Proof.
  intros Hwf Hd Hp Hne Hv Hpar Hn. unfold transfer_tree, bind, get, eval.
  assert (exists_ m S = true) as ->.
  { unfold exists_, stat. rewrite resolve_dir by done. by destruct Hd as [t ->]. }
  simpl. assert (∃ e, gather m S files = Err e) as [e ->]; [|by eexists].
  assert (HvS : valid_comps (S ++ p)). { apply valid_app. split; [by eapply wf_dir_valid|done]. }
  assert (scan_tree m (S ++ p) = Err FileNotFound) as Hscan.
  { unfold scan_tree. simpl. unfold scandir. rewrite resolve_follow; [|done|done|done|].
    - by rewrite node_at_app_ne, Hn.
    - intros t k. by rewrite Hn. }
  induction files as [|q files IH]; [by apply elem_of_nil in Hp|]. simpl. apply elem_of_cons in Hp as [<-|Hp].
  - rewrite Hscan. eauto.
  - destruct (IH Hp) as [e ->]. destruct (scan_tree m (S ++ q)) as [l|[]]; eauto.
Qed.
Print Assumptions C22_missing_changes_nothing_partial.
(** Nor is anything changed when the source itself is missing, whatever is
    requested: it is not taken for an empty directory. *)
Theorem C22_source_missing_partial now tty m S D files exclude rm :
  wf_fs m → S ≠ [] → valid_comps S → dir_at m (parent S) → m !! S = None →
  transfer_tree now tty S D files exclude rm m = ([], m, Err FileNotFound).
Proof.
  intros Hwf Hne Hv Hpar Hn. unfold transfer_tree, bind, get, eval.
  assert (exists_ m S = false) as ->; [|reflexivity]. unfold exists_, stat.
  rewrite resolve_follow; [|done|done|done|].
  - unfold node_at. destruct S as [|x S]; [done|]. by rewrite Hn.
  - intros t k. by rewrite Hn.
Qed.
Print Assumptions C22_source_missing_partial.
Example C22_source_missing_ex :
  wf_fs ex_fs ∧ valid_comps [lit "gone"] ∧ dir_at ex_fs (parent [lit "gone"]) ∧ ex_fs !! [lit "gone"] = None ∧ dir_at ex_fs pd.
Proof. split_and!; try (apply (bool_decide_unpack _); vm_compute; exact I). Qed.

(** ** C23 Building a symlink tree. *)
Theorem C23_symlink_tree now (iter : list path → list path) S D files dirs m :
  (∀ l, iter l ≡ₚ l) → linkable D files dirs false m →
  let '(tr, m', r) := symlink_tree now iter S D files dirs false m in
  (∀ x, x ∈ tr ++ [m'] → ∀ k n, m !! k = Some n → x !! k = Some n)
  ∧ (∀ q, q ∈ dirs ∪ files → is_Some (m' !! (D ++ q)))
  ∧ (∀ k n, m !! k = None → m' !! k = Some n → ∃ q, q ∈ dirs ∪ files ∧ k = D ++ q
       ∧ n = if decide (q ∈ dirs) then Dir now else Link (abs_path (S ++ q)) now)
  ∧ ∃ new, r = Ok new ∧ ∀ q, q ∈ new ↔ m !! (D ++ q) = None ∧ is_Some (m' !! (D ++ q)).
Proof.
  intros Hit K.
  assert (Hin : ∀ X m1, linked now S D dirs false m X m1 → ∀ q, q ∈ X → is_Some (m1 !! (D ++ q))).
  { intros X m1 HL q Hq. rewrite (li_in _ _ _ _ _ _ _ _ HL q Hq). unfold sl_node.
    destruct (decide (q ∈ dirs)), (m !! (D ++ q)); by eexists. }
  assert (Hkeep : ∀ X m1, linked now S D dirs false m X m1 → ∀ k n, m !! k = Some n → m1 !! k = Some n).
  { intros X m1 HL k n Hk. destruct (decide (Exists (λ q, k = D ++ q) X)) as [He|He].
    - apply Exists_exists in He as (q & Hq & ->). rewrite (li_in _ _ _ _ _ _ _ _ HL q Hq). unfold sl_node.
      by destruct (decide (q ∈ dirs)); rewrite Hk.
    - rewrite (li_out _ _ _ _ _ _ _ _ HL); [done|]. intros q Hq ->. apply He, Exists_exists. eauto. }
  assert (wp (symlink_tree now iter S D files dirs false) (λ x, ∀ k n, m !! k = Some n → x !! k = Some n)
    (λ r m', ∃ X, linked now S D dirs false m X m' ∧ (∀ q, q ∈ X ↔ q ∈ dirs ∪ files) ∧
       r = Ok (filter (created D dirs false m) (dirs ∪ files))) m) as [HI H].
  { apply (symlink_tree_wp now S D files dirs false m K); [done|done| |].
    - intros X m2 HL _. by eapply Hkeep.
    - intros X m2 HL HX. exists X. done. }
  destruct (symlink_tree now iter S D files dirs false m) as [[tr m'] r]. simpl in *.
  destruct H as (X & HL & HX & ->).
  assert (Hnew : ∀ k n, m !! k = None → m' !! k = Some n → ∃ q, q ∈ dirs ∪ files ∧ k = D ++ q
       ∧ n = if decide (q ∈ dirs) then Dir now else Link (abs_path (S ++ q)) now).
  { intros k n Hk Hn. destruct (decide (Exists (λ q, k = D ++ q) X)) as [He|He].
    - apply Exists_exists in He as (q & Hq & ->). exists q. split; [by apply HX|]. split; [done|].
      rewrite (li_in _ _ _ _ _ _ _ _ HL q Hq), Hk in Hn. unfold sl_node in Hn. destruct (decide (q ∈ dirs)); by injection Hn.
    - rewrite (li_out _ _ _ _ _ _ _ _ HL) in Hn; [congruence|]. intros q Hq ->. apply He, Exists_exists. eauto. }
  split_and!.
  - intros x [Hx|Hx%elem_of_list_singleton]%elem_of_app.
    + rewrite Forall_forall in HI. by apply HI.
    + subst. by eapply Hkeep.
  - intros q Hq. eapply Hin; [done|by apply HX].
  - done.
  - eexists. split; [done|]. intros q. rewrite elem_of_filter. unfold created. split.
    + intros [[H|[? _]] Hq]; [|done]. split; [done|]. eapply Hin; [done|by apply HX].
    + intros [H1 [n H2]]. split; [by left|]. destruct (Hnew _ _ H1 H2) as (q' & Hq' & E & _). by apply app_inv_head in E as ->.
Qed.
Print Assumptions C23_symlink_tree.
(** With overwrite only requested files are replaced, by their links. *)
Theorem C23_symlink_overwrite now (iter : list path → list path) S D files dirs m :
  (∀ l, iter l ≡ₚ l) → linkable D files dirs true m →
  let '(tr, m', r) := symlink_tree now iter S D files dirs true m in
  (∀ x, x ∈ tr ++ [m'] → ∀ k n, m !! k = Some n → (∀ q, q ∈ files → q ∉ dirs → k ≠ D ++ q) → x !! k = Some n)
  ∧ (∀ q, q ∈ files → q ∉ dirs → m' !! (D ++ q) = Some (Link (abs_path (S ++ q)) now))
  ∧ (∀ q, q ∈ dirs → is_Some (m' !! (D ++ q)))
  ∧ (∀ k, (∀ q, q ∈ dirs ∪ files → k ≠ D ++ q) → m' !! k = m !! k)
  ∧ ∃ new, r = Ok new ∧ ∀ q, q ∈ new ↔ q ∈ dirs ∪ files ∧ (m !! (D ++ q) = None ∨ q ∉ dirs).
Proof.
  intros Hit K.
  assert (Hkeep : ∀ X m1, linked now S D dirs true m X m1 → (∀ q, q ∈ X → q ∈ dirs ∪ files) →
    ∀ k n, m !! k = Some n → (∀ q, q ∈ files → q ∉ dirs → k ≠ D ++ q) → m1 !! k = Some n).
  { intros X m1 HL HX k n Hk Hf. destruct (decide (Exists (λ q, k = D ++ q) X)) as [He|He].
    - apply Exists_exists in He as (q & Hq & ->). rewrite (li_in _ _ _ _ _ _ _ _ HL q Hq). unfold sl_node.
      destruct (decide (q ∈ dirs)) as [|Hd]; [by rewrite Hk|]. exfalso. apply (Hf q); [|done|done]. specialize (HX q Hq). set_solver.
    - rewrite (li_out _ _ _ _ _ _ _ _ HL); [done|]. intros q Hq ->. apply He, Exists_exists. eauto. }
  assert (wp (symlink_tree now iter S D files dirs true)
    (λ x, ∀ k n, m !! k = Some n → (∀ q, q ∈ files → q ∉ dirs → k ≠ D ++ q) → x !! k = Some n)
    (λ r m', ∃ X, linked now S D dirs true m X m' ∧ (∀ q, q ∈ X ↔ q ∈ dirs ∪ files) ∧
       r = Ok (filter (created D dirs true m) (dirs ∪ files))) m) as [HI H].
  { apply (symlink_tree_wp now S D files dirs true m K); [done| | |].
    - intros X p m2 Hp Hpd _ _ HL HpX HX k n Hk Hf. rewrite lookup_delete_ne by (intros E; by apply (Hf p)).
      by eapply Hkeep.
    - intros X m2 HL HX. by eapply Hkeep.
    - intros X m2 HL HX. exists X. done. }
  destruct (symlink_tree now iter S D files dirs true m) as [[tr m'] r]. simpl in *.
  destruct H as (X & HL & HX & ->). split_and!.
  - intros x [Hx|Hx%elem_of_list_singleton]%elem_of_app.
    + rewrite Forall_forall in HI. by apply HI.
    + subst. eapply Hkeep; [done|]. intros q. apply HX.
  - intros q Hq Hqd. rewrite (li_in _ _ _ _ _ _ _ _ HL q) by (apply HX; set_solver). unfold sl_node.
    rewrite decide_False by done. by destruct (m !! (D ++ q)).
  - intros q Hq. rewrite (li_in _ _ _ _ _ _ _ _ HL q) by (apply HX; set_solver). unfold sl_node.
    rewrite decide_True by done. destruct (m !! (D ++ q)); by eexists.
  - intros k Hk. apply (li_out _ _ _ _ _ _ _ _ HL). intros q Hq. apply Hk. by apply HX.
  - eexists. split; [done|]. intros q. rewrite elem_of_filter. unfold created. naive_solver.
Qed.
Print Assumptions C23_symlink_overwrite.
Example C23_example :
  let files := {[ [lit "a"; lit "f"]; [lit "g"]; [lit "n"; lit "x"] ]} : gset path in
  let dirs := {[ [lit "a"]; [lit "n"] ]} : gset path in
  linkable pd files dirs false ex_fs ∧ linkable pd files dirs true ex_fs ∧
  let '(_, m', r) := symlink_tree 100 (@rev _) ps pd files dirs false ex_fs in
  show_fs m' (map (app pd) [[lit "a"]; [lit "a"; lit "f"]; [lit "g"]; [lit "n"]; [lit "n"; lit "x"]])
  = [Some (Dir 4); Some (File (lit "old") 5); Some (Link (lit "/s/g") 6); Some (Dir 100); Some (Link (lit "/s/n/x") 100)]
  ∧ match r with Ok s => bool_decide (s = {[ [lit "n"]; [lit "n"; lit "x"] ]}) = true | Err _ => False end.
Proof.
  split; [apply (bool_decide_unpack _); vm_compute; exact I|].
  split; [apply (bool_decide_unpack _); vm_compute; exact I|]. vm_compute. split; reflexivity.
Qed.
