(** Invariants of the files of a profile (proofs for Prop_Life.v). *)
From Verif Require Export Life.
From stdpp Require Import options.

  Lemma ended_in (P : proc → Prop) (e : ending) (run : list proc * proc * res unit) :
    Forall P run.1.1 → P run.1.2 → ∃ s, P s ∧ rem s = (ended e run).2 ∧ ((ended e run).1 = at_exit s ∨ (∃ n, e = Killed n) ∧ (ended e run).1 = disk s).
  Proof.
    intros Hf Hl. rewrite Forall_forall in Hf. destruct e as [|n|n]; simpl.
    - eauto 10.
    - destruct (run.1.1 !! n) as [s|] eqn:E; [|by eauto 10]. exists s. split; [eapply Hf, elem_of_list_lookup_2, E|]. auto.
    - destruct (run.1.1 !! n) as [s|] eqn:E; [|by eauto 10]. exists s. split; [eapply Hf, elem_of_list_lookup_2, E|]. eauto 10.
  Qed.

(** The invariant: files are written in this order. *)
Definition in_order (d : pfiles) : Prop :=
  (f_dir d = false → d = no_files)
  ∧ (f_info d = Absent → f_db d = Absent ∧ f_cfg d = Absent)
  ∧ (∀ c, f_cfg d = Whole c → ∃ rows, f_db d = Whole rows)
  ∧ (∀ rows, f_db d = Whole rows → rows = ∅ ∨ ∃ a, f_info d = Whole (Info IInitialized a))
  ∧ (f_info d ≠ Absent → f_dir d = true ∧ f_exclude d = true)
  ∧ (∀ a, f_info d = Whole (Info IInitialized a) → ∃ c, f_cfg d = Whole c).
Definition finished (d : pfiles) : Prop := d = no_files ∨ ∃ c, f_cfg d = Whole c.
Definition proc_ok (s : proc) : Prop := in_order (disk s) ∧ (on_delete s = true ∨ finished (disk s)).

Ltac red_ := cbn [disk rem on_delete on_cleanup set_disk set_rem set_dir set_exclude set_info set_db set_cfg f_dir f_exclude f_info f_db f_cfg
  start_proc read_profile fst snd negb i_status i_add rm_file] in *.
Ltac go := repeat (first
  [ apply wp_bind | apply wp_put | apply wp_get | apply wp_ret | apply wp_throw
  | match goal with |- wp (match ?x with _ => _ end) _ _ _ => destruct x; simplify_eq end
  | progress red_ ]).
Lemma init_ok add answers valid work d r :
  in_order d →
  let P s := in_order (disk s) ∧ (finished d → on_delete s = true ∨ finished (disk s)) in
  wp (init_life add answers valid work) P (λ _ s, P s) (start_proc d r).
Proof.
  intros (H1 & H2 & H3 & H5 & H6 & H4) P. destruct d as [fd fe fi fdb fc]. red_.
  assert (Hp : ∀ d' r' a b, in_order d' → (finished (PFiles fd fe fi fdb fc) → a = true ∨ finished d') → P (Proc d' r' a b)) by (intros; by split).
  clearbody P. unfold init_life, generate_files, generate_remote, use_dbs, write_info, create_db, finish, disk_.
  destruct fi as [| |[[] a]], fc as [| |c0], fdb as [| |rows0]; try (by destruct H2); try (by destruct (H3 _ eq_refl)); try (by destruct (H4 _ eq_refl)).
  all: go.
  all: try (destruct (H5 _ eq_refl) as [->|[? ?]]; simplify_eq).
  all: try (destruct H6 as [-> ->]; [done|]).
  all: apply Hp; unfold in_order, finished, no_files; red_.
  all: repeat split; intros; repeat match goal with
    | H : finished _ |- _ => unfold finished in H; red_
    | H : ∃ _, _ |- _ => destruct H
    | H : _ ∨ _ |- _ => destruct H
    | H : _ ∧ _ |- _ => destruct H
    end; try congruence; eauto 4; try (left; congruence); try (right; eauto).
Qed.

Lemma at_exit_ok s d : in_order (disk s) → (on_delete s = true ∨ finished (disk s)) ∨ d → in_order (at_exit s) ∧ (finished (at_exit s) ∨ d).
Proof.
  intros Ho Hf. unfold at_exit. destruct (on_delete s).
  - assert (∀ b : bool, (if b && is_empty no_files then set_dir false no_files else no_files) = no_files) as He by by intros [].
    rewrite (He (on_cleanup s)). split; [|left; by left]. unfold in_order, no_files; simpl. split_and!; naive_solver.
  - assert (is_empty (disk s) = true → set_dir false (disk s) = no_files) as He.
    { unfold is_empty, set_dir, no_files. destruct (disk s) as [a [] [] [] []]; simpl; done. }
    destruct (on_cleanup s && is_empty (disk s)) eqn:E.
    + apply andb_true_iff in E as [_ E]. rewrite He by done. split; [|left; by left]. unfold in_order, no_files; simpl. split_and!; naive_solver.
    + split; [done|]. naive_solver.
Qed.

(** ** Reset *)
Definition rm_all (order : list fname) (d : pfiles) : pfiles := foldl (λ d x, rm_file x d) d order.
Lemma rm_all_wp order (R : proc → Prop) (Q : res unit → proc → Prop) s :
  (∀ pre post, order = pre ++ post → R (set_disk (rm_all pre) s)) →
  Q (Ok tt) (set_disk (rm_all order) s) → wp (for_ order (λ x, disk_ (rm_file x))) R Q s.
Proof.
  intros HR HQ. apply (wp_for_inv R order _ (λ pre s', s' = set_disk (rm_all pre) s)).
  - by destruct s.
  - intros pre x post s' E ->. assert (set_disk (rm_file x) (set_disk (rm_all pre) s) = set_disk (rm_all (pre ++ [x])) s) as Ex.
    { unfold rm_all, set_disk. rewrite foldl_app. done. }
    apply wp_put; rewrite Ex; [|done]. apply (HR _ post). by rewrite E, <- app_assoc.
  - by intros s' ->.
Qed.
Lemma rm_all_field {A} (get : pfiles → A) (z : A) (x : fname) order d :
  (∀ d, get (rm_file x d) = z) → (∀ y d, get (rm_file y d) = z ∨ get (rm_file y d) = get d) →
  (get (rm_all order d) = z ∨ get (rm_all order d) = get d) ∧ (x ∈ order → get (rm_all order d) = z).
Proof.
  intros Hx Hy. unfold rm_all. induction order as [|y order IH] using rev_ind; simpl.
  - split; [by right|]. by intros ?%elem_of_nil.
  - rewrite foldl_app. simpl. set (d' := foldl _ _ _) in *. destruct IH as [IH1 IH2]. split.
    + destruct (Hy y d') as [->| ->]; auto.
    + intros [H|H]%elem_of_app; [|apply elem_of_list_singleton in H as ->; apply Hx].
      destruct (Hy y d') as [->| ->]; auto.
Qed.
Lemma rm_info order d : (f_info (rm_all order d) = Absent ∨ f_info (rm_all order d) = f_info d) ∧ (NInfo ∈ order → f_info (rm_all order d) = Absent).
Proof. apply (rm_all_field f_info); [done|]. intros []; auto. Qed.
Lemma rm_cfg order d : (f_cfg (rm_all order d) = Absent ∨ f_cfg (rm_all order d) = f_cfg d) ∧ (NCfg ∈ order → f_cfg (rm_all order d) = Absent).
Proof. apply (rm_all_field f_cfg); [done|]. intros []; auto. Qed.
Lemma rm_db order d : (f_db (rm_all order d) = Absent ∨ f_db (rm_all order d) = f_db d) ∧ (NDb ∈ order → f_db (rm_all order d) = Absent).
Proof. apply (rm_all_field f_db); [done|]. intros []; auto. Qed.
Lemma rm_exclude order d : (f_exclude (rm_all order d) = false ∨ f_exclude (rm_all order d) = f_exclude d) ∧ (NExclude ∈ order → f_exclude (rm_all order d) = false).
Proof. apply (rm_all_field f_exclude); [done|]. intros []; auto. Qed.
Lemma rm_dir order d : f_dir (rm_all order d) = f_dir d.
Proof. unfold rm_all. revert d. induction order as [|[] order IH]; intros d; simpl; [done|rewrite IH; done..]. Qed.
Lemma rm_all_gone order d : (∀ x, x ∈ order) → set_dir false (rm_all order d) = no_files.
Proof.
  intros H. pose proof (proj2 (rm_info order d) (H _)). pose proof (proj2 (rm_cfg order d) (H _)). pose proof (proj2 (rm_db order d) (H _)). pose proof (proj2 (rm_exclude order d) (H _)).
  destruct (rm_all order d) as [? ? ? ? ?]; red_. by subst.
Qed.
