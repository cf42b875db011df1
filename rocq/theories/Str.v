(** Python strings.

    A Python [str] is modelled as the list of its Unicode code points.  This
    file holds the [str] methods the program uses.  No file of /repo is
    modelled here: these are the CPython built-ins that /repo calls; each
    definition names the built-in. *)
From stdpp Require Export list numbers prelude.
From Coq Require String Ascii.
Export String.StringSyntax.
From stdpp Require Import options.
#[global] Open Scope stdpp_scope.
#[global] Open Scope list_scope.

Notation char := N (only parsing).
Notation str := (list N) (only parsing).

(** A literal of the source as a list of code points (ASCII only). *)
Fixpoint lit (x : String.string) : str :=
  match x with
  | String.EmptyString => []
  | String.String a r => Ascii.N_of_ascii a :: lit r
  end.

#[global] Arguments lit _%string_scope.

Definition c_slash : char := 47%N.
Definition c_dot : char := 46%N.
Definition c_hash : char := 35%N.
Definition c_eq : char := 61%N.
Definition c_dash : char := 45%N.
Definition c_nl : char := 10%N.

Definition dot : str := [c_dot].
Definition dotdot : str := [c_dot; c_dot].

(** [x.startswith(p)] *)
Fixpoint startswith (p x : str) : bool :=
  match p, x with
  | [], _ => true
  | _ :: _, [] => false
  | a :: p', b :: x' => N.eqb a b && startswith p' x'
  end.

(** [x.endswith(p)] *)
Definition endswith (p x : str) : bool := startswith (rev p) (rev x).

(** [x.lstrip(chars)] for a predicate on characters *)
Fixpoint lstrip_by (f : char → bool) (x : str) : str :=
  match x with
  | [] => []
  | c :: x' => if f c then lstrip_by f x' else x
  end.
(** [x.rstrip(chars)] *)
Definition rstrip_by (f : char → bool) (x : str) : str :=
  rev (lstrip_by f (rev x)).
Definition strip_by (f : char → bool) (x : str) : str :=
  rstrip_by f (lstrip_by f x).

(** [str.isspace] for one character: the code points that [str.strip()] strips
    and that [\s] matches in a [str] pattern. *)
Definition is_space (c : char) : bool :=
  ((9 <=? c) && (c <=? 13) || (28 <=? c) && (c <=? 32)
   || (c =? 133) || (c =? 160) || (c =? 5760)
   || (8192 <=? c) && (c <=? 8202)
   || (c =? 8232) || (c =? 8233) || (c =? 8239) || (c =? 8287)
   || (c =? 12288))%N.

(** [x.strip()] *)
Definition strip : str → str := strip_by is_space.

(** [x.lower()] restricted to ASCII letters.  Simplification: the other code
    points are left unchanged; none of them lowers to a letter of the words
    the program compares with ("yes", "true", "no", "false"). *)
Definition lower_char (c : char) : char :=
  if ((65 <=? c) && (c <=? 90))%N then (c + 32)%N else c.
Definition lower (x : str) : str := map lower_char x.

(** [x.split(sep)] for a one-character separator *)
Fixpoint split_on (c : char) (x : str) : list str :=
  match x with
  | [] => [[]]
  | a :: x' =>
      if N.eqb a c then [] :: split_on c x'
      else match split_on c x' with
           | h :: t => (a :: h) :: t
           | [] => [[a]]
           end
  end.

(** [sep.join(l)] for a one-character separator *)
Fixpoint join_on (c : char) (l : list str) : str :=
  match l with
  | [] => []
  | [x] => x
  | x :: l' => x ++ c :: join_on c l'
  end.

(** [x.partition(sep)] for a one-character separator, without the middle
    element (the program takes [[::2]]): (text before, text after).  When the
    separator is absent the result is (x, ""). *)
Fixpoint partition_on (c : char) (x : str) : str * str :=
  match x with
  | [] => ([], [])
  | a :: x' =>
      if N.eqb a c then ([], x')
      else let '(k, v) := partition_on c x' in (a :: k, v)
  end.

(** [c in x] *)
Definition contains_char (c : char) (x : str) : bool := existsb (N.eqb c) x.

(** [x.count(c)] *)
Definition count_char (c : char) (x : str) : nat :=
  length (List.filter (N.eqb c) x).

(** [a <= b] on strings: lexicographic on code points. *)
Fixpoint str_leb (a b : str) : bool :=
  match a, b with
  | [], _ => true
  | _ :: _, [] => false
  | x :: a', y :: b' => (x <? y)%N || ((x =? y)%N && str_leb a' b')
  end.

(** Equality test of strings ([==]). *)
Definition str_eqb (a b : str) : bool := bool_decide (a = b).

(** [str(n)] for a natural number: decimal digits. *)
Definition is_digit (c : char) : bool := ((48 <=? c) && (c <=? 57))%N.
Fixpoint show_N_aux (fuel : nat) (n : N) (acc : str) : str :=
  match fuel with
  | O => acc
  | S f =>
      let acc' := (48 + n mod 10)%N :: acc in
      if (n <? 10)%N then acc' else show_N_aux f (n / 10)%N acc'
  end.
Definition show_N (n : N) : str := show_N_aux (S (N.to_nat (N.log2 n))) n [].

(** [int(x)] for a text that consists of ASCII digits. *)
Definition digit_val (c : char) : N := (c - 48)%N.
Definition parse_N (x : str) : N :=
  fold_left (λ acc c, 10 * acc + digit_val c)%N x 0%N.

(** * Facts *)

Lemma startswith_spec p x : startswith p x = true ↔ p `prefix_of` x.
Proof.
  revert x. induction p as [|a p IH]; intros x; simpl.
  - split; [intros _; apply prefix_nil|reflexivity].
  - destruct x as [|b x]; simpl.
    + split; [discriminate|]. intros H. by apply prefix_nil_not in H.
    + rewrite andb_true_iff, N.eqb_eq, IH. split.
      * intros [-> H]. by apply prefix_cons.
      * intros H. split; [by eapply prefix_cons_inv_1|by eapply prefix_cons_inv_2].
Qed.

Lemma split_on_ne c x : split_on c x ≠ [].
Proof. destruct x; simpl; [done|]. destruct (N.eqb _ _); [done|]. by destruct (split_on c x). Qed.

Lemma split_on_noc c x : c ∉ x → split_on c x = [x].
Proof.
  induction x as [|a x IH]; simpl; intros H; [done|].
  apply not_elem_of_cons in H as [H1 H2].
  destruct (N.eqb_spec a c) as [->|_]; [done|]. by rewrite IH.
Qed.

Lemma split_on_app c a b : c ∉ a → split_on c (a ++ c :: b) = a :: split_on c b.
Proof.
  induction a as [|x a IH]; simpl; intros H.
  - by rewrite N.eqb_refl.
  - apply not_elem_of_cons in H as [H1 H2].
    destruct (N.eqb_spec x c) as [->|_]; [done|]. by rewrite IH.
Qed.

Lemma split_on_mid c a b : split_on c (a ++ c :: b) = split_on c a ++ split_on c b.
Proof.
  induction a as [|x a IH]; simpl.
  - by rewrite N.eqb_refl.
  - destruct (N.eqb x c); [by rewrite IH|]. rewrite IH.
    destruct (split_on c a) as [|h t] eqn:E; [by apply split_on_ne in E|]. done.
Qed.

Lemma split_on_join c l : l ≠ [] → Forall (λ x, c ∉ x) l →
  split_on c (join_on c l) = l.
Proof.
  induction l as [|x l IH]; [done|]. intros _ H. inversion_clear H as [|? ? Hx Hl].
  destruct l as [|y l]; [by apply split_on_noc|].
  change (join_on c (x :: y :: l)) with (x ++ c :: join_on c (y :: l)).
  rewrite split_on_app by done. rewrite IH; done.
Qed.

Lemma split_on_elem c x : Forall (λ y, c ∉ y) (split_on c x).
Proof.
  induction x as [|a x IH]; simpl; [by repeat constructor; apply not_elem_of_nil|].
  destruct (N.eqb_spec a c) as [->|Hn].
  - constructor; [apply not_elem_of_nil|done].
  - destruct (split_on c x) as [|h t]; inversion_clear IH as [|? ? Hh Ht].
    + constructor; [|done]. apply not_elem_of_cons; split; [congruence|apply not_elem_of_nil].
    + constructor; [|done]. apply not_elem_of_cons; split; [congruence|done].
Qed.

Lemma join_split c x : join_on c (split_on c x) = x.
Proof.
  induction x as [|a x IH]; simpl; [done|].
  destruct (N.eqb_spec a c) as [->|Hn].
  - destruct (split_on c x) as [|h t] eqn:E; [by apply split_on_ne in E|].
    simpl in *. by rewrite IH.
  - destruct (split_on c x) as [|h t] eqn:E; [by apply split_on_ne in E|].
    destruct t; simpl in *; by rewrite <-IH.
Qed.

Lemma str_leb_refl a : str_leb a a = true.
Proof. induction a as [|x a IH]; simpl; [done|]. by rewrite N.eqb_refl, IH, orb_true_r. Qed.

Lemma str_leb_total a b : str_leb a b = true ∨ str_leb b a = true.
Proof.
  revert b. induction a as [|x a IH]; intros [|y b]; simpl; auto.
  destruct (N.lt_trichotomy x y) as [H|[->|H]].
  - left. apply N.ltb_lt in H. by rewrite H.
  - rewrite N.eqb_refl, N.ltb_irrefl. simpl. apply IH.
  - right. apply N.ltb_lt in H. by rewrite H.
Qed.

Lemma str_leb_antisym a b : str_leb a b = true → str_leb b a = true → a = b.
Proof.
  revert b. induction a as [|x a IH]; intros [|y b]; simpl; try done.
  rewrite !orb_true_iff, !andb_true_iff, !N.ltb_lt, !N.eqb_eq.
  intros [H|[-> H]] [H'|[? H']]; try lia. f_equal. auto.
Qed.

Lemma str_leb_trans a b c : str_leb a b = true → str_leb b c = true → str_leb a c = true.
Proof.
  revert b c. induction a as [|x a IH]; intros [|y b] [|z c]; simpl; try done.
  rewrite !orb_true_iff, !andb_true_iff, !N.ltb_lt, !N.eqb_eq.
  intros [H|[-> H]] [H'|[-> H']]; [left; lia|left; lia|left; lia|right; eauto].
Qed.

Lemma str_leb_prefix a b : a `prefix_of` b → str_leb a b = true.
Proof.
  intros [k ->]. induction a as [|x a IH]; simpl; [done|].
  by rewrite N.eqb_refl, IH, orb_true_r.
Qed.

Lemma lstrip_by_idem f x : (∀ c r, x = c :: r → f c = false) → lstrip_by f x = x.
Proof. destruct x as [|c x]; simpl; intros H; [done|]. by rewrite (H c x). Qed.

Lemma lstrip_by_spec f x :
  ∃ p, x = p ++ lstrip_by f x ∧ Forall (λ c, f c = true) p ∧
       (∀ c r, lstrip_by f x = c :: r → f c = false).
Proof.
  induction x as [|a x IH]; simpl.
  - exists []. done.
  - destruct (f a) eqn:E.
    + destruct IH as (p & H1 & H2 & H3). exists (a :: p). simpl. split; [congruence|].
      split; [by constructor|done].
    + exists []. split; [done|]. split; [constructor|]. intros c r [= -> ->]. done.
Qed.

Lemma lstrip_by_app f p x : Forall (λ c, f c = true) p → lstrip_by f (p ++ x) = lstrip_by f x.
Proof. induction 1 as [|a p Ha _ IH]; simpl; [done|]. by rewrite Ha. Qed.

Lemma lstrip_by_all f x : Forall (λ c, f c = true) x → lstrip_by f x = [].
Proof. intros H. rewrite <-(app_nil_r x), lstrip_by_app by done. done. Qed.

(** The value of a decimal rendering. *)
Lemma parse_N_app x c : parse_N (x ++ [c]) = (10 * parse_N x + digit_val c)%N.
Proof. unfold parse_N. by rewrite fold_left_app. Qed.

Lemma fold_parse_acc x a :
  fold_left (λ acc c, 10 * acc + digit_val c)%N x a = (a * 10 ^ N.of_nat (length x) + parse_N x)%N.
Proof.
  revert a. induction x as [|c x IH]; intros a; cbn [fold_left length].
  - change (parse_N []) with 0%N. change (N.of_nat 0) with 0%N. rewrite N.pow_0_r. lia.
  - unfold parse_N at 1. cbn [fold_left]. rewrite !IH.
    rewrite Nat2N.inj_succ, N.pow_succ_r' . lia.
Qed.

Lemma show_N_aux_parse fuel n acc :
  (n < 2 ^ N.of_nat fuel)%N →
  parse_N (show_N_aux fuel n acc) = (n * 10 ^ N.of_nat (length acc) + parse_N acc)%N.
Proof.
  revert n acc. induction fuel as [|f IH]; intros n acc H.
  - change (2 ^ N.of_nat 0)%N with 1%N in H. assert (n = 0%N) as -> by lia. simpl. lia.
  - cbn [show_N_aux].
    assert (Hd : digit_val (48 + n mod 10)%N = (n mod 10)%N) by (unfold digit_val; generalize (n mod 10)%N; lia).
    assert (Hp : parse_N ((48 + n mod 10)%N :: acc)
                 = ((n mod 10) * 10 ^ N.of_nat (length acc) + parse_N acc)%N).
    { unfold parse_N at 1. cbn [fold_left]. rewrite fold_parse_acc, Hd. lia. }
    pose proof (N.div_mod n 10 ltac:(lia)) as Hdm.
    destruct (N.ltb_spec n 10).
    + rewrite Hp. rewrite N.mod_small by lia. lia.
    + rewrite IH.
      * rewrite Hp. cbn [length]. rewrite Nat2N.inj_succ, N.pow_succ_r'. rewrite Hdm at 3.
        lia.
      * rewrite Nat2N.inj_succ, N.pow_succ_r' in H.
        apply N.div_lt_upper_bound; lia.
Qed.

Lemma parse_show_N n : parse_N (show_N n) = n.
Proof.
  unfold show_N. rewrite show_N_aux_parse.
  - simpl. change (parse_N []) with 0%N. lia.
  - rewrite Nat2N.inj_succ, N2Nat.id. destruct n as [|p]; [done|].
    apply N.log2_spec. lia.
Qed.

Lemma show_N_inj n m : show_N n = show_N m → n = m.
Proof. intros H. rewrite <-(parse_show_N n), <-(parse_show_N m). by rewrite H. Qed.

Lemma show_N_aux_digits fuel n acc :
  Forall (λ c, is_digit c = true) acc → Forall (λ c, is_digit c = true) (show_N_aux fuel n acc).
Proof.
  revert n acc. induction fuel as [|f IH]; intros n acc H; cbn [show_N_aux]; [done|].
  assert (is_digit (48 + n mod 10)%N = true).
  { pose proof (N.mod_lt n 10 ltac:(lia)) as Hm. revert Hm. generalize (n mod 10)%N. intros m Hm. unfold is_digit.
    rewrite andb_true_iff, !N.leb_le. lia. }
  destruct (n <? 10)%N; [by constructor|]. apply IH. by constructor.
Qed.

Lemma show_N_digits n : Forall (λ c, is_digit c = true) (show_N n).
Proof. apply show_N_aux_digits. constructor. Qed.
