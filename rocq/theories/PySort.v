(** Python's stable [list.sort] as an insertion sort by a boolean order. *)
From Coq Require Export Sorted.
From Verif Require Export Str.
From stdpp Require Import options.

(** [sorted(l)]: stable; [leb x y = true] means that [x] may stay before [y].
    [sorted(l, key=k, reverse=True)] keeps the order of equal elements, so it
    is [isort (λ x y, k y <=? k x)]. *)
Section isort.
  Context {A : Type} (leb : A → A → bool).

  Fixpoint insert_sorted (x : A) (l : list A) : list A :=
    match l with
    | [] => [x]
    | y :: l' => if leb x y then x :: l else y :: insert_sorted x l'
    end.
  Fixpoint isort (l : list A) : list A :=
    match l with
    | [] => []
    | x :: l' => insert_sorted x (isort l')
    end.

  Lemma insert_sorted_perm x l : insert_sorted x l ≡ₚ x :: l.
  Proof.
    induction l as [|y l IH]; simpl; [done|]. destruct (leb x y); [done|].
    rewrite IH. apply Permutation_swap.
  Qed.
  Lemma isort_perm l : isort l ≡ₚ l.
  Proof. induction l as [|x l IH]; simpl; [done|]. by rewrite insert_sorted_perm, IH. Qed.

  Definition le (x y : A) : Prop := leb x y = true.

  Lemma elem_of_isort x l : x ∈ isort l ↔ x ∈ l.
  Proof. by rewrite isort_perm. Qed.
  Lemma NoDup_isort l : NoDup (isort l) ↔ NoDup l.
  Proof. by rewrite isort_perm. Qed.
  Lemma length_isort l : length (isort l) = length l.
  Proof. by rewrite isort_perm. Qed.

  (** Strongly sorted under a total, transitive order. *)
  Lemma insert_sorted_sorted x l
    (Htr : ∀ a b c, leb a b = true → leb b c = true → leb a c = true)
    (Htot : ∀ a b, leb a b = true ∨ leb b a = true) :
    StronglySorted le l → StronglySorted le (insert_sorted x l).
  Proof.
    induction 1 as [|y l Hl IH Hy]; simpl.
    - repeat constructor.
    - destruct (leb x y) eqn:E.
      + constructor; [by constructor|]. constructor; [done|].
        eapply Forall_impl; [exact Hy|]. intros z Hz. unfold le in *. eauto.
      + constructor; [done|]. rewrite insert_sorted_perm. constructor; [|done].
        unfold le. destruct (Htot x y) as [H|H]; congruence.
  Qed.
  Lemma isort_sorted l
    (Htr : ∀ a b c, leb a b = true → leb b c = true → leb a c = true)
    (Htot : ∀ a b, leb a b = true ∨ leb b a = true) :
    StronglySorted le (isort l).
  Proof. induction l; simpl; [constructor|]. by apply insert_sorted_sorted. Qed.

  (** Sorting is independent of the input order when the order is antisymmetric
      on the elements. *)
  Lemma sorted_unique l l'
    (Hanti : ∀ a b, a ∈ l → b ∈ l → leb a b = true → leb b a = true → a = b) :
    StronglySorted le l → StronglySorted le l' → l ≡ₚ l' → l = l'.
  Proof.
    intros Hs. revert l'. induction Hs as [|x l Hl IH Hx]; intros l' Hs' Hp.
    - by apply Permutation_nil in Hp.
    - destruct Hs' as [|y l' Hl' Hy].
      { symmetry in Hp. by apply Permutation_nil_cons in Hp. }
      assert (x = y) as <-.
      { assert (x ∈ y :: l') as H1 by (rewrite <-Hp; left).
        assert (y ∈ x :: l) as H2 by (rewrite Hp; left).
        apply elem_of_cons in H1 as [?|H1]; [done|].
        apply elem_of_cons in H2 as [?|H2]; [done|].
        rewrite Forall_forall in Hx, Hy.
        apply Hanti; [by left|by right|by apply Hx|by apply Hy]. }
      f_equal. apply IH; [|done|by apply Permutation_cons_inv in Hp].
      intros a b Ha Hb. apply Hanti; by right.
  Qed.
  Lemma isort_permutation l l'
    (Htr : ∀ a b c, leb a b = true → leb b c = true → leb a c = true)
    (Htot : ∀ a b, leb a b = true ∨ leb b a = true)
    (Hanti : ∀ a b, a ∈ l → b ∈ l → leb a b = true → leb b a = true → a = b) :
    l ≡ₚ l' → isort l = isort l'.
  Proof.
    intros Hp. apply sorted_unique; [|by apply isort_sorted|by apply isort_sorted|].
    - intros a b. rewrite !elem_of_isort. apply Hanti.
    - by rewrite !isort_perm.
  Qed.
End isort.

(** In a sorted list nothing is strictly before a smaller element. *)
Lemma sorted_lookup {A} (leb : A → A → bool) l i j x y :
  StronglySorted (le leb) l → l !! i = Some x → l !! j = Some y → i < j → leb x y = true.
Proof.
  intros Hs. revert i j. induction Hs as [|z l Hl IH Hz]; intros i j Hi Hj Hlt; [done|].
  destruct i as [|i], j as [|j]; simpl in *; try lia.
  - simplify_eq. rewrite Forall_forall in Hz. apply Hz. by eapply elem_of_list_lookup_2.
  - eapply IH; eauto. lia.
Qed.
