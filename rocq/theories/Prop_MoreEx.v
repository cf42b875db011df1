(** Examples for C22, C30, C70 and C86: what meets the hypotheses of their theorems. *)
From Coq Require Import QArith Qcanon.
From Verif Require Command Life LifeProofs PriorityProofs Prop_Fstools FSDec Prop_Priority Prop_Command Prop_Life.
From stdpp Require Import gmap options.

Section C22.
  Import Prop_Fstools FSDec.
  (** Of two requested files one is missing. *)
  Example C22_ex : let p := [lit "gone"] in let files := [[lit "g"]; p] in
    wf_fs ex_fs ∧ dir_at ex_fs [lit "s"] ∧ p ∈ files ∧ p ≠ [] ∧ valid_comps p
    ∧ dir_at ex_fs (parent ([lit "s"] ++ p)) ∧ ex_fs !! ([lit "s"] ++ p) = None ∧ is_Some (ex_fs !! [lit "s"; lit "g"]).
  Proof.
    cbv zeta. split_and!; try (by vm_compute; eauto).
    all: try (apply (bool_decide_unpack _); vm_compute; exact Logic.I).
  Qed.
End C22.

Section C30.
  Import PriorityProofs Prop_Priority.
  (** Two clients that keep different files, in different orders. *)
  Example C30_ex :
    let ldb' := (λ d, LData (ld_dir d) (ld_prio d) (negb (ld_local d))) <$> ex_ldb in
    (∀ p, p ∈ dom ex_ldb → valid_comps p) ∧ (∀ p, keyed <$> ex_ldb !! p = keyed <$> ldb' !! p) ∧ ldb' ≠ ex_ldb
    ∧ select false 4096 70000 1000 ex_sized ex_sized ex_ldb ex_rdb id = select false 4096 70000 1000 ex_sized ex_sized ldb' ex_rdb (@rev _)
    ∧ show_sel (select false 4096 70000 1000 ex_sized ex_sized ex_ldb ex_rdb id) ≠ None.
  Proof.
    intros ldb'.
    assert (∀ p, p ∈ dom ex_ldb → valid_comps p) as Hv by apply C29_C32_example.
    assert (∀ p, keyed <$> ex_ldb !! p = keyed <$> ldb' !! p) as Hk.
    { intros p. subst ldb'. rewrite lookup_fmap. by destruct (ex_ldb !! p). }
    split; [exact Hv|]. split; [exact Hk|]. split; [|split].
    - intros H. apply (f_equal (λ d : gmap path ldata, ld_local <$> d !! [lit "e"])) in H. vm_compute in H. discriminate.
    - apply C30_selection_predictable; [done|intros l; symmetry; apply Permutation_rev|exact Hv|exact Hk].
    - destruct C29_C32_example as (_ & _ & H).
      rewrite (C30_selection_predictable false 4096 70000 1000 ex_sized ex_sized ex_ldb ex_ldb ex_rdb id (@rev _)); [by rewrite H|done| |exact Hv|done].
      intros l. symmetry. apply Permutation_rev.
  Qed.
End C30.

Section C70.
  Import Command Prop_Command.
  (** A command on another profile runs; this one gets its lock. *)
  Example C70_ex :
    let who := λ i : nat, (1000%N, if decide (i = 1) then lit "home" else lit "work") in
    let l := [Start 0; Start 1; Lock 0] in
    Forall (λ c, (c < 128)%N) (lit "home") ∧ length (lit "home") <= 89 ∧ length (show_N 1000) <= 10
    ∧ who 1 = (1000%N, lit "home") ∧ states (run_events who l) !! 1 = Some PStart ∧ states (run_events who l) !! 0 = Some PInside
    ∧ states (run_events who (l ++ [Lock 1])) !! 1 = Some PInside.
  Proof.
    cbv zeta. split; [apply (bool_decide_unpack _); vm_compute; exact Logic.I|].
    split; [apply (bool_decide_unpack _); vm_compute; exact Logic.I|]. split; [apply (bool_decide_unpack _); vm_compute; exact Logic.I|].
    split_and!; vm_compute; reflexivity.
  Qed.
End C70.

Section C86.
  Import Life LifeProofs Prop_Life.
  (** An initialization that was killed; it is finished and then reset. *)
  Example C86_ex :
    let c := Dirs (lit "/h") (lit "/r") in
    let x := ended (Killed 12) (init_life true (Some c) (λ _, true) (λ _ _, Ok {[ lit "a" ]}) (start_proc no_files Absent)) in
    attempted false x.1 x.2 ∧ (∃ c', f_cfg x.1 = Whole c') ∧ f_info x.1 = Whole (Info IPartial true) ∧ x.2 = Whole tt.
  Proof.
    intros c x. destruct C85_ex as (H & E & _). split; [exact H|].
    assert (x = (PFiles true true (Whole (Info IPartial true)) (Whole ∅) (Whole c), Whole tt)) as -> by exact E.
    split; [by exists c|done].
  Qed.
End C86.
