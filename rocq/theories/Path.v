(** Relative paths above the string layer: the list of their components from
    the top directory down to the entry.  [PosixPath] relates the string
    functions to them: [dirname_rel] (dirname drops the last component),
    [count_slash_rel] (the number of slashes is the depth less one),
    [rel_path_inj] (different lists have different texts). *)
From Verif Require Export PosixPath PySort Utils.
From stdpp Require Export gmap.
From stdpp Require Import options.

Notation path := (list (list N)) (only parsing).

(** [os.path.dirname] of a relative path; [[]] is the empty text, that is the
    sync directory itself. *)
Definition parent (p : path) : path := removelast p.

(** [q] is directly in the directory [p]. *)
Definition child_of (q p : path) : Prop := ∃ x, q = p ++ [x].
(** [q] is strictly below [p]. *)
Definition below (q p : path) : Prop := ∃ x l, q = p ++ x :: l.

Global Instance child_of_dec q p : Decision (child_of q p).
Proof.
  refine (cast_if (decide (p = parent q ∧ q ≠ []))).
  - destruct a as [-> Hq]. unfold parent. destruct q as [|x q _] using rev_ind; [done|].
    exists x. by rewrite removelast_last.
  - intros [x ->]. apply n. unfold parent. rewrite removelast_last. split; [done|].
    by destruct p.
Defined.
Lemma below_prefix q p : below q p ↔ p `prefix_of` q ∧ p ≠ q.
Proof.
  split.
  - intros (x & l & ->). split; [by eexists|]. intros E.
    apply (f_equal length) in E. rewrite app_length in E. simpl in E. lia.
  - intros [[l ->] Hne]. destruct l as [|x l]; [by rewrite app_nil_r in Hne|]. by exists x, l.
Qed.
Global Instance below_dec q p : Decision (below q p).
Proof.
  refine (cast_if (decide (p `prefix_of` q ∧ p ≠ q))); by rewrite below_prefix.
Defined.

(** The non-empty prefixes of a path: the path and its ancestor directories. *)
Fixpoint prefixes (p : path) : list path :=
  match p with
  | [] => []
  | x :: p' => [x] :: map (cons x) (prefixes p')
  end.
Lemma elem_of_prefixes a p : a ∈ prefixes p ↔ a ≠ [] ∧ a `prefix_of` p.
Proof.
  revert a. induction p as [|x p IH]; intros a; simpl.
  - rewrite elem_of_nil. split; [done|]. intros [Hn Hp]. by apply prefix_nil_inv in Hp.
  - rewrite elem_of_cons, elem_of_list_fmap. split.
    + intros [->|(b & -> & Hb)].
      * split; [done|]. by exists p.
      * apply IH in Hb as [Hb Hp]. split; [done|]. by apply prefix_cons.
    + intros [Hn Hp]. destruct a as [|y a]; [done|].
      pose proof (prefix_cons_inv_1 _ _ _ _ Hp) as ->. apply prefix_cons_inv_2 in Hp.
      destruct a as [|z a]; [by left|]. right. exists (z :: a). split; [done|]. by apply IH.
Qed.

(** Sorting by depth; both are stable in Python. *)
Definition depth_le (p q : path) : bool := Nat.leb (length p) (length q).
Definition depth_ge (p q : path) : bool := Nat.leb (length q) (length p).
Lemma depth_le_sorted l : StronglySorted (PySort.le depth_le) (isort depth_le l).
Proof. apply isort_sorted; unfold depth_le; intros *; rewrite ?Nat.leb_le; lia. Qed.
Lemma depth_ge_sorted l : StronglySorted (PySort.le depth_ge) (isort depth_ge l).
Proof. apply isort_sorted; unfold depth_ge; intros *; rewrite ?Nat.leb_le; lia. Qed.

(** utils.py 71-94, [get_path_ancestry], on component lists: the inputs and
    their ancestors, deeper ones first.  Simplification: paths of the same
    depth come in a fixed order instead of the set's order; [ancestry_agrees]
    below shows that this is the only difference. *)
Definition ancestry (ps : list path) : list path :=
  isort depth_ge (remove_dups (ps ≫= prefixes)).

Lemma elem_of_ancestry a ps : a ∈ ancestry ps ↔ a ≠ [] ∧ ∃ p, p ∈ ps ∧ a `prefix_of` p.
Proof.
  unfold ancestry. rewrite elem_of_isort, elem_of_remove_dups, elem_of_list_bind.
  split.
  - intros (p & Ha & Hp). apply elem_of_prefixes in Ha as [? ?]. eauto.
  - intros (Hn & p & Hp & Hpre). exists p. split; [|done]. by apply elem_of_prefixes.
Qed.
Lemma NoDup_ancestry ps : NoDup (ancestry ps).
Proof. unfold ancestry. rewrite NoDup_isort. apply NoDup_remove_dups. Qed.

Lemma prefix_parent p : parent p `prefix_of` p.
Proof.
  unfold parent. destruct p as [|x p _] using rev_ind; [done|]. rewrite removelast_last. by exists [x].
Qed.
Lemma parent_snoc p x : parent (p ++ [x]) = p.
Proof. apply removelast_last. Qed.
Lemma snoc_parent p : p ≠ [] → ∃ x, p = parent p ++ [x].
Proof.
  intros Hp. destruct p as [|x p _] using rev_ind; [done|]. exists x. by rewrite parent_snoc.
Qed.
Lemma prefix_snoc_inv (a p : path) x : a `prefix_of` p ++ [x] → a `prefix_of` p ∨ a = p ++ [x].
Proof.
  intros [k Hk]. destruct k as [|y k _] using rev_ind.
  - right. by rewrite app_nil_r in Hk.
  - left. exists k. rewrite app_assoc in Hk. by apply app_inj_tail in Hk as [-> _].
Qed.
Lemma child_prefix (q p : path) : child_of q p → p `prefix_of` q.
Proof. intros [x ->]. by exists [x]. Qed.
Lemma child_length (q p : path) : child_of q p → length q = S (length p).
Proof. intros [x ->]. rewrite app_length. simpl. lia. Qed.
Lemma child_parent q p : child_of q p ↔ q ≠ [] ∧ parent q = p.
Proof.
  split.
  - intros [x ->]. rewrite parent_snoc. split; [by destruct p|done].
  - intros [Hq <-]. destruct (snoc_parent q Hq) as [x Hx]. by exists x.
Qed.
Lemma prefix_len_eq (p q : path) : p `prefix_of` q → length q <= length p → p = q.
Proof.
  intros [k ->] H. rewrite app_length in H. destruct k; [by rewrite app_nil_r|simpl in H; lia].
Qed.
Lemma prefix_child (p q : path) : p `prefix_of` q → length q = S (length p) → child_of q p.
Proof.
  intros [k ->] H. rewrite app_length in H. destruct k as [|x [|? ?]]; simpl in H; try lia. by exists x.
Qed.
Lemma prefix_comparable (a b p : path) : a `prefix_of` p → b `prefix_of` p → length a <= length b → a `prefix_of` b.
Proof.
  intros [k ->] [k' E] H. exists (drop (length a) b).
  rewrite <-(take_drop (length a) b) at 1. f_equal.
  apply (f_equal (take (length a))) in E. rewrite take_app in E.
  rewrite take_app_le in E by done. done.
Qed.

(** [ancestry] lists the same paths as the code's [get_path_ancestry]. *)
Lemma ancestry_agrees iter (ps : list path) out :
  (∀ x, iter x ≡ₚ x) → Forall (λ p, p ≠ [] ∧ valid_comps p) ps →
  get_path_ancestry iter (map rel_path ps) = Some out →
  out ≡ₚ map rel_path (ancestry ps).
Proof.
  intros Hi Hv Hg. destruct (get_path_ancestry_spec iter ps Hi Hv) as (out' & Hg' & Hnd & Hm & _).
  simplify_eq. apply NoDup_Permutation; [done| |].
  - apply NoDup_fmap_2_strong; [|apply NoDup_ancestry].
    intros a b Ha Hb E. rewrite Forall_forall in Hv.
    apply elem_of_ancestry in Ha as (_ & p & Hp & Hpa). apply elem_of_ancestry in Hb as (_ & q & Hq & Hqb).
    apply rel_path_inj in E; [done| |].
    + eapply valid_prefix; [|exact Hpa]. by apply Hv.
    + eapply valid_prefix; [|exact Hqb]. by apply Hv.
  - intros x. rewrite Hm, elem_of_list_fmap. split.
    + intros (l & a & Hl & [Ha Hp] & ->). exists a. split; [done|]. apply elem_of_ancestry. eauto.
    + intros (a & -> & Ha). apply elem_of_ancestry in Ha as (Hn & p & Hp & Hpre). exists p, a. done.
Qed.
