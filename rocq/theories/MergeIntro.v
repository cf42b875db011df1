(** Worlds in which no known path is excluded: the conditions at once. *)
From Verif Require Export Merge.
From stdpp Require Import options.

Section intro.
  Context (C : conf) (m : fs) (ldb : lmap) (rdb : rmap) (last_sync : Z) (X : pset).
  Local Notation l_at := (l_at C m).
  Local Notation r_at := (r_at C m).
  Local Notation known := (known ldb).
  Local Notation stray := (stray C m ldb X).
  Local Notation new_l := (new_l C m ldb X).
  Local Notation gone_l := (gone_l C m ldb).
  Local Notation gone_r := (gone_r C m ldb).
  Local Notation edited_l := (edited_l C m ldb last_sync).
  Local Notation edited_r := (edited_r C m ldb rdb last_sync).
  Local Notation trashed := (trashed C m ldb).
  Local Notation ldir := (λ p, ld_dir <$> ldb !! p).
  Local Notation rdir := (λ p, rd_dir <$> rdb !! p).
  Lemma calm_intro :
    mounted C m → apart (c_L C) (c_R C) → util_ok C m → dir_at m (trash_dir C) → (∀ p, zielen_dir `prefix_of` p → l_at p = None) →
    rows ldir → rows rdir →
    (∀ p b n, ldir p = Some b → l_at p = Some n → is_Dir n = b) →
    (∀ p b n, ldir p = Some b ∨ rdir p = Some b → r_at p = Some n → is_Dir n = b) →
    (∀ p b b', ldir p = Some b → rdir p = Some b' → b = b') →
    (∀ p, known p → is_Some (r_at p) → is_Some (rdb !! p)) →
    (∀ p, is_Some (rdb !! p) → known p ∨ is_Some (r_at p)) →
    (∀ p t k, r_at p ≠ Some (Link t k)) →
    (∀ p t k, l_at p = Some (Link t k) → (known p ∧ t = abs_path (c_R C ++ p)) ∨ stray p) →
    (∀ p, p ∈ X → is_Some (l_at p) ∧ ¬ known p) →
    (∀ p, stray p → r_at p = None) →
    (∀ p q, stray p → q `prefix_of` p → q ≠ p → q ≠ [] → stray q ∨ (known q ∧ is_Some (r_at q))) →
    (∀ p q, stray q → q `prefix_of` p → is_Some (l_at p) → stray p) →
    (∀ p x t k, p ≠ [] → last p = Some x → stray (p ++ [x]) → l_at (p ++ [x]) ≠ Some (Link t k)) →
    (∀ p n n', ¬ known p → l_at p = Some n → r_at p = Some n' → is_Dir n = is_Dir n') →
    (∀ p, gone_l p ∨ gone_r p → ¬ edited_l p ∧ ¬ edited_r p) →
    (∀ p q, gone_l p → p `prefix_of` q → is_Some (r_at q) → known q) →
    (∀ p q, gone_r p → p `prefix_of` q → is_Some (l_at q) → known q) →
    (∀ p, gone_l p → is_Some (rdb !! p)) →
    (∀ p t, new_l p → l_at p = Some (Dir t) → r_at p = None → (∃ x, is_Some (l_at (p ++ [x]))) ∨ new_l (parent p)) →
    (c_inflate C = true → (∃ p, new_l p) → ∃ p, ldir p = Some false ∧ is_Some (l_at p) ∧ is_Some (r_at p)) →
    (∀ p q, trashed p → trashed q → last p = last q → p = q) →
    (∀ p x, trashed p → last p = Some x → m !! (trash_dir C ++ [x]) = None) →
    (∀ x t k, m !! (trash_dir C ++ [x]) ≠ Some (Link t k)) →
    calm C m ldb rdb last_sync X.
  Proof.
    intros. split; [split|]; try done.
    - intros p Hp. destruct (H13 p Hp). split; [done|]. by intros ?.
    - intros p x n Hp Hk. by destruct (H13 p Hp).
    - intros p Hp. by destruct (H13 p Hp).
  Qed.
  Lemma clean_x_intro : calm_x C m ldb rdb last_sync X →
    (∀ p n n', ¬ known p → l_at p = Some n → r_at p = Some n' → is_Dir n = true ∧ is_Dir n' = true) →
    (∀ p, edited_l p → ¬ edited_r p) → clean_x C m ldb rdb last_sync X.
  Proof.
    intros Hc Hn He. split; [done|]. intros p (c & t & c' & t' & Hl & Hr & _ & [[H1 H2]|Hk]); [by apply (He p)|]. by destruct (Hn p _ _ Hk Hl Hr).
  Qed.
  Lemma clean_of : calm C m ldb rdb last_sync X → (∀ p, ¬ clash C m ldb rdb last_sync p) → clean C m ldb rdb last_sync X.
  Proof. intros [H Hu] Hc. split; [by split|done]. Qed.
End intro.
