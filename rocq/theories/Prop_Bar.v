(** C93: the progress bar stays on its line and ends at 100%. *)
From Verif Require Import Bar.
From stdpp Require Import options.

Lemma round_div_le n d k : 0 < d → n ≤ k * d → round_div n d ≤ k.
Proof.
  intros Hd H. unfold round_div. pose proof (Nat.div_mod n d ltac:(lia)) as E. pose proof (Nat.mod_upper_bound n d ltac:(lia)) as Hm.
  assert (n / d ≤ k) by (apply Nat.div_le_upper_bound; nia).
  destruct (Nat.eq_dec (n / d) k) as [Ek|]; [|repeat case_match; lia].
  assert (n mod d = 0) as -> by nia. destruct (2 * 0 <? d) eqn:El; [done|]. apply Nat.ltb_ge in El. lia.
Qed.
Lemma round_div_exact k d : 0 < d → round_div (k * d) d = k.
Proof.
  intros Hd. unfold round_div. rewrite Nat.div_mul, Nat.mod_mul by lia. destruct d; [lia|reflexivity].
Qed.
Lemma round_div_near n d : 0 < d → 2 * d * round_div n d ≤ 2 * n + d.
Proof.
  intros Hd. unfold round_div. pose proof (Nat.div_mod n d ltac:(lia)) as E. pose proof (Nat.mod_upper_bound n d ltac:(lia)) as Hm.
  destruct (2 * (n mod d) <? d) eqn:E1; [nia|]. apply Nat.ltb_ge in E1. repeat case_match; nia.
Qed.
Lemma round_div_mono n n' d : 0 < d → n ≤ n' → round_div n d ≤ round_div n' d.
Proof.
  intros Hd H. unfold round_div.
  pose proof (Nat.div_mod n d ltac:(lia)) as E. pose proof (Nat.mod_upper_bound n d ltac:(lia)) as Hm.
  pose proof (Nat.div_mod n' d ltac:(lia)) as E'. pose proof (Nat.mod_upper_bound n' d ltac:(lia)) as Hm'.
  pose proof (Nat.div_le_mono n n' d ltac:(lia) H) as Hq.
  destruct (Nat.eq_dec (n / d) (n' / d)) as [Eq|].
  - rewrite Eq in *. assert (n mod d ≤ n' mod d) by nia.
    destruct (2 * (n mod d) <? d) eqn:A1; destruct (2 * (n' mod d) <? d) eqn:A2; rewrite ?Nat.ltb_lt, ?Nat.ltb_ge in *; try lia; repeat case_match; rewrite ?Nat.ltb_lt, ?Nat.ltb_ge in *; lia.
  - repeat case_match; lia.
Qed.
Lemma percent_length n : n ≤ 100 → length (rjust 3 (show_N (N.of_nat n))) = 3.
Proof.
  intros H. assert (forallb (λ n, length (rjust 3 (show_N (N.of_nat n))) =? 3) (seq 0 101) = true) as Hall by (vm_compute; reflexivity).
  rewrite forallb_forall in Hall. apply Nat.eqb_eq, Hall, in_seq. lia.
Qed.

(** On a terminal of ten columns or more the line is exactly as wide as the
    terminal: a beginning of the message, blanks, and the bar. *)
Theorem C93_width_partial width message a b : 10 ≤ width → a ≤ b → 0 < b →
  ∃ line k blanks bar, bar_line width message a b = Some line ∧ length line = width
    ∧ line = take k message ++ replicate blanks 32%N ++ bar ∧ 0 < blanks
    ∧ length bar = round_div (35 * width) 100 + 5.
Proof.
  intros Hw Hab Hb. unfold bar_line. rewrite (proj2 (Nat.ltb_ge b a)) by done. cbn [coverage fst snd].
  replace (width * 35) with (35 * width) by lia. set (bl := round_div (35 * width) 100).
  set (fi := round_div (bl * a) b). assert (fi ≤ bl) as Hfi by (apply round_div_le; nia).
  set (bar := (replicate fi full_char ++ replicate (bl - fi) empty_char) ++ [32%N] ++ rjust 3 (show_N (N.of_nat (round_div (100 * a) b))) ++ lit "%").
  assert (length bar = bl + 5) as Hlen.
  { unfold bar. rewrite !app_length, !replicate_length, percent_length by (apply round_div_le; nia). cbn. lia. }
  assert (bl ≤ width - 6) as Hbl. { pose proof (round_div_near (35 * width) 100 ltac:(lia)) as H. fold bl in H. lia. }
  unfold slice_to. rewrite (proj2 (Z.leb_le 0 _)) by lia. set (k := Z.to_nat _).
  unfold rjust at 1. eexists _, k, _, bar. split; [reflexivity|]. 
  assert (length (take k message) ≤ k) as Hk by (rewrite take_length; lia). assert (k = width - (bl + 5) - 1) as Ek by lia.
  split; [|split; [reflexivity|split; [lia|done]]]. rewrite !app_length, replicate_length. lia.
Qed.
Print Assumptions C93_width_partial.
(** On a very narrow terminal the length for the message is negative, and most of
    the message is printed. *)
Theorem C93_narrow_refuted : ∃ width message a b line, a ≤ b ∧ 0 < b ∧ bar_line width message a b = Some line ∧ 3 * width < length line.
Proof. exists 8, (lit "Updating local files..."), 1, 2. eexists. split; [lia|]. split; [lia|]. split; [vm_compute; reflexivity|]. vm_compute. lia. Qed.
Print Assumptions C93_narrow_refuted.

(** The updates during a transfer: one for each file, none is an error, the
    numbers do not decrease, and the last is 100%. *)
Definition percent (ab : nat * nat) : nat := round_div (100 * ab.1) ab.2.
Theorem C93_updates sizes :
  length (updates sizes) = length sizes
  ∧ (∀ ab, ab ∈ updates sizes → ab.1 ≤ ab.2 ∧ 0 < ab.2)
  ∧ (∀ i j x y, i ≤ j → updates sizes !! i = Some x → updates sizes !! j = Some y → percent x ≤ percent y)
  ∧ (∀ x, last (updates sizes) = Some x → percent x = 100).
Proof.
  assert (Hl : ∀ total sofar l, length (updates_from total sofar l) = length l) by (intros total sofar l; revert sofar; induction l as [|s l IH]; intros; [done|]; cbn; by rewrite IH).
  assert (Hn : ∀ total l sofar i x, updates_from total sofar l !! i = Some x →
    if total =? 0 then x = (1, 1) else x = (sofar + sum_list (take (S i) l), total) ∧ i < length l).
  { intros total l. induction l as [|s l IH]; intros sofar i x E; [done|]. destruct i as [|i]; cbn in E.
    - destruct (total =? 0); injection E as <-; [done|]. cbn. rewrite take_0. cbn. split; [f_equal; lia|lia].
    - apply IH in E. destruct (total =? 0); [done|]. destruct E as [-> ?]. cbn. split; [f_equal; lia|lia]. }
  assert (Hs : ∀ (l : list nat) i, sum_list (take i l) ≤ sum_list l).
  { induction l as [|s l IH]; intros [|i]; cbn; try lia. specialize (IH i). lia. }
  assert (Hm : ∀ (l : list nat) i j, i ≤ j → sum_list (take i l) ≤ sum_list (take j l)).
  { induction l as [|s l IH]; intros [|i] [|j] H; cbn; try lia. specialize (IH i j). lia. }
  unfold updates. split; [done|]. split; [|split].
  - intros x [i E]%elem_of_list_lookup. apply Hn in E. destruct (sum_list sizes =? 0) eqn:E0; [subst; cbn; lia|]. apply Nat.eqb_neq in E0. destruct E as [-> _]. cbn.
    specialize (Hs sizes (S i)). cbn in Hs. lia.
  - intros i j x y Hij Hx Hy. apply Hn in Hx, Hy. destruct (sum_list sizes =? 0) eqn:E0; [by subst|]. apply Nat.eqb_neq in E0. destruct Hx as [-> _], Hy as [-> _].
    unfold percent. cbn [fst snd]. apply round_div_mono; [lia|]. specialize (Hm sizes (S i) (S j) ltac:(lia)). lia.
  - intros x E. rewrite last_lookup in E. apply Hn in E. destruct (sum_list sizes =? 0) eqn:E0; [subst; by vm_compute|]. apply Nat.eqb_neq in E0. destruct E as [-> Hi]. rewrite Hl in *.
    rewrite take_ge by lia. unfold percent. cbn [fst snd]. apply (round_div_exact 100). lia.
Qed.
Print Assumptions C93_updates.
Example C93_ex :
  updates [10; 0; 30] = [(10, 40); (10, 40); (40, 40)] ∧ updates [0; 0] = [(1, 1); (1, 1)]
  ∧ bar_line 20 (lit "Moving") 1 4 = Some (lit "Moving  " ++ [full_char; full_char] ++ replicate 5 empty_char ++ lit "  25%")
  ∧ length (lit "Moving  " ++ [full_char; full_char] ++ replicate 5 empty_char ++ lit "  25%") = 20.
Proof. by vm_compute. Qed.
