(** C24-C27: what changed since the last sync (filelogic.py 553-693).

    [mounted]: both directories exist and the file system is a tree.
    [current]: the command has not looked at the files yet, or what it has seen
    is what there is. *)
From Coq Require Import QArith Qcanon.
From Verif Require Import FMProofs DBInv ExWorld.
From stdpp Require Import options.

(** An entry of the local or the remote directory, without the program's own
    directory. *)
Definition local_entry (C : conf) (w : world) (p : path) (n : node) : Prop :=
  p ≠ [] ∧ w_fs w !! (c_L C ++ p) = Some n.
Definition remote_entry (C : conf) (w : world) (p : path) (n : node) : Prop :=
  p ≠ [] ∧ w_fs w !! (c_R C ++ p) = Some n ∧ ¬ zielen_dir `prefix_of` p.
(** Nothing on disk and no database row changed. *)
Definition same_data (w w' : world) : Prop :=
  w_fs w' = w_fs w ∧ w_ldb w' = w_ldb w ∧ w_rdb w' = w_rdb w ∧ w_last w' = w_last w ∧ v_ldb w' = v_ldb w ∧ v_rdb w' = v_rdb w.

(** ** C24 Detection of new files. *)
Theorem C24_added C w :
  mounted C (w_fs w) → current C w →
  ∃ w' a b, compute_added C w = ([], w', Ok (a, b)) ∧ same_data w w'
    ∧ (∀ p, p ∈ a ↔ (∃ n, local_entry C w p n) ∧ v_ldb w !! p = None
          ∧ safe_entry (w_fs w) (c_L C) p ∧ p ∉ c_glob C (c_patterns C) (w_fs w) (c_L C))
    ∧ (∀ p, p ∈ b ↔ (∃ n, remote_entry C w p n) ∧ v_ldb w !! p = None).
Proof.
  intros Hm Hc. eexists _, _, _. split; [by apply compute_added_run|]. split; [done|]. split; intros p.
  - unfold added_local. rewrite elem_of_difference, elem_of_filter, elem_of_dom. unfold is_Some. setoid_rewrite tree_lookup.
    unfold local_entry. split.
    + intros (((Hk & Hu) & n & Hp & Hn) & He). split; [by exists n|]. split; [done|]. split; [|done].
      by apply (unsafe_link_spec _ _ _ n); try done; apply Hm.
    + intros ((n & Hp & Hn) & Hk & Hs & He). split; [|done]. split; [split; [done|]|by exists n].
      apply (unsafe_link_spec _ _ _ n); try done; apply Hm.
  - unfold added_remote. rewrite elem_of_filter, elem_of_hide_util, elem_of_dom. unfold is_Some. setoid_rewrite tree_lookup.
    unfold remote_entry. naive_solver.
Qed.
Print Assumptions C24_added.

(** ** C25 Detection of deletions.
    Every known path that is missing locally must be in the remote database;
    see C43 for what happens otherwise. *)
Theorem C25_deleted C w :
  mounted C (w_fs w) → current C w →
  let K p := is_Some (v_ldb w !! p) in
  let gone_l p := K p ∧ ¬ ∃ n, local_entry C w p n in
  let gone_r p := K p ∧ ¬ ∃ n, remote_entry C w p n in
  let top (P : path → Prop) p := P p ∧ ∀ q, P q → ¬ below p q in
  (∀ p, gone_l p → is_Some (v_rdb w !! p)) →
  ∃ w' dl dr tr, compute_deleted C w = ([], w', Ok (dl, dr, tr)) ∧ same_data w w'
    ∧ (∀ p, p ∈ dl ↔ top gone_r p)
    ∧ (∀ p, p ∈ tr ↔ top gone_l p ∧ c_trash C = true ∧ ∃ d, v_ldb w !! p = Some d ∧ ld_local d = false)
    ∧ (∀ p, p ∈ dr ↔ top gone_l p ∧ ¬ (c_trash C = true ∧ ∃ d, v_ldb w !! p = Some d ∧ ld_local d = false)).
Proof.
  intros Hm Hc K gone_l gone_r top Hr.
  set (ls := tree (w_fs w) (c_L C)). set (rs := hide_util (tree (w_fs w) (c_R C))).
  assert (∀ p, p ∈ dom (v_ldb w) ∖ dom ls ↔ gone_l p) as Hl.
  { intros p. unfold gone_l, K, local_entry, ls. rewrite elem_of_difference, !elem_of_dom. unfold is_Some. setoid_rewrite tree_lookup. done. }
  assert (∀ p, p ∈ dom (v_ldb w) ∖ dom rs ↔ gone_r p) as Hg.
  { intros p. unfold gone_r, K, remote_entry, rs. rewrite elem_of_difference, elem_of_hide_util, !elem_of_dom. unfold is_Some.
    setoid_rewrite tree_lookup. naive_solver. }
  destruct (topmost_spec (v_ldb w) (dom (v_ldb w) ∖ dom rs)) as (dl & Edl & Hdl); [set_solver|].
  destruct (topmost_spec (v_rdb w) (dom (v_ldb w) ∖ dom ls)) as (dr & Edr & Hdr).
  { intros p Hp. apply Hl, Hr in Hp. by apply elem_of_dom. }
  set (tr := if c_trash C then dr ∩ dom (sl_get (v_ldb w) None None (Some false)) else ∅).
  exists (seen2 C w), dl, (dr ∖ tr), tr. split; [|split; [done|]].
  { apply compute_deleted_run; try done. unfold deleted. fold ls rs. by rewrite Edl, Edr. }
  assert (∀ p, p ∈ dr ↔ top gone_l p) as Hdr'.
  { intros p. rewrite Hdr, Hl. unfold top. by setoid_rewrite Hl. }
  assert (∀ p, p ∈ tr ↔ top gone_l p ∧ c_trash C = true ∧ ∃ d, v_ldb w !! p = Some d ∧ ld_local d = false) as Htr.
  { intros p. unfold tr. destruct (c_trash C).
    - rewrite elem_of_intersection, Hdr'. unfold sl_get. rewrite dom_s_query. simpl.
      assert (∀ d, opt_eqb (Some false) (ld_local d) = true ↔ ld_local d = false) as Hb by (intros d; by destruct (ld_local d)).
      setoid_rewrite Hb. split; [naive_solver|]. intros (? & _ & d & ? & ?). split; [done|]. exists d. split; [done|]. split; [apply prefix_nil|done].
    - split; [set_solver|]. by intros (_ & ? & _). }
  split; [|split; [done|]].
  - intros p. rewrite Hdl, Hg. unfold top. by setoid_rewrite Hg.
  - intros p. rewrite elem_of_difference, Hdr', Htr. naive_solver.
Qed.
Print Assumptions C25_deleted.

(** ** C26 Detection of modifications. *)
Theorem C26_modified C w last :
  mounted C (w_fs w) → current C w → w_last w = Some last →
  ∃ w' a b, compute_modified C w = ([], w', Ok (a, b)) ∧ same_data w w'
    ∧ (∀ p, p ∈ a ↔ is_Some (v_ldb w !! p) ∧ ∃ n, local_entry C w p n ∧ is_Dir n = false ∧ (last < mtime n)%Z
          ∧ safe_entry (w_fs w) (c_L C) p)
    ∧ (∀ p, p ∈ b ↔ (is_Some (v_ldb w !! p) ∧ ∃ n, remote_entry C w p n ∧ is_Dir n = false ∧ (last < mtime n)%Z)
          ∨ ∃ d, v_rdb w !! p = Some d ∧ rd_dir d = false ∧ (last < rd_last d)%Z).
Proof.
  intros Hm Hc Hl. eexists _, _, _. split; [by apply compute_modified_run|]. split; [done|]. split; intros p.
  - unfold modified_local. rewrite elem_of_filter, (elem_of_dom (filter _ _)). unfold is_Some at 2.
    setoid_rewrite map_filter_lookup_Some. setoid_rewrite tree_lookup. cbn [fst snd]. unfold local_entry. split.
    + intros ((Hk & Hu) & n & (Hp & Hn) & Hd & Ht). split; [done|]. exists n. split; [done|]. split; [done|]. split; [done|].
      by apply (unsafe_link_spec _ _ _ n); try done; apply Hm.
    + intros (Hk & n & (Hp & Hn) & Hd & Ht & Hs). split; [split; [done|]|by exists n].
      apply (unsafe_link_spec _ _ _ n); try done; apply Hm.
  - unfold modified_remote. rewrite elem_of_union, elem_of_filter, (elem_of_dom (filter _ _)). unfold is_Some at 2.
    setoid_rewrite map_filter_lookup_Some. setoid_rewrite hide_util_lookup. setoid_rewrite tree_lookup. cbn [fst snd].
    unfold sr_get. rewrite dom_s_query. cbn [default]. unfold remote_entry.
    assert (∀ d, (opt_eqb (Some false) (rd_dir d) && bool_decide (last < rd_last d)%Z) = true ↔ rd_dir d = false ∧ (last < rd_last d)%Z) as Hb.
    { intros d. rewrite andb_true_iff, bool_decide_eq_true. destruct (rd_dir d); simpl; naive_solver. }
    setoid_rewrite Hb. assert (∀ q : path, [] `prefix_of` q) by apply prefix_nil. naive_solver.
Qed.
Print Assumptions C26_modified.

(** ** C27 Stale computation never touches what must stay.
    [keep]: the paths that are to be retained. *)
Theorem C27_stale (C : conf) (w : world) (keep : pset) :
  mounted C (w_fs w) → current C w → tree_ok (v_ldb w) → [] ∉ keep →
  ∃ w' s, compute_stale C keep w = ([], w', Ok s) ∧ same_data w w'
    ∧ ∀ p, p ∈ s ↔ (∃ n, local_entry C w p n) ∧ is_Some (v_ldb w !! p)
         ∧ p ∉ c_glob C (c_patterns C) (w_fs w) (c_L C)
         ∧ ∀ r, r ∈ keep → ¬ r `prefix_of` p ∧ (is_Some (v_ldb w !! r) → ¬ p `prefix_of` r).
Proof.
  intros Hm Hc Ht Hk. unfold compute_stale.
  rewrite (bind_run0 _ _ _ _ _ (excluded_run C w Hc)).
  set (e := c_glob C (c_patterns C) (w_fs w) (c_L C)).
  rewrite (bind_run0 _ _ _ _ _ (local_scan_run C (set_excl (Some e) w) Hm true (λ _, current_excl C w Hc))), bind_get.
  eexists _, _. split; [done|]. split; [done|]. cbn [v_ldb set_lscan set_excl w_fs].
  intros p. unfold stale. rewrite elem_of_filter, elem_of_difference, elem_of_intersection, elem_of_difference.
  assert (∀ q, q ∈ retained (v_ldb w) keep ↔ q ∈ dom (v_ldb w) ∧ ∃ r, r ∈ keep ∧ r `prefix_of` q) as Hret.
  { intros q. unfold retained. rewrite elem_of_union_list. split.
    - intros (X & HX & Hq). apply elem_of_list_fmap in HX as (r & -> & Hr). apply elem_of_elements in Hr.
      apply dom_sl_under in Hq as [? ?]. eauto.
    - intros (Hq & r & Hr & Hp). eexists. split; [apply elem_of_list_fmap; exists r; split; [done|by apply elem_of_elements]|].
      by apply dom_sl_under. }
  rewrite Hret, (elem_of_dom (tree _ _)), (elem_of_dom (v_ldb w) p). unfold is_Some at 1. setoid_rewrite tree_lookup.
  split.
  - intros (Hi & ((Hn & He) & Hkn) & Hnr). split; [done|]. split; [done|]. split; [done|].
    intros r Hr. split.
    + intros Hpre. apply Hnr. split; [done|]. by exists r.
    + intros Hrk Hpr. assert (r ∈ dom (sl_get (v_ldb w) (Some p) None None) ∩ retained (v_ldb w) keep) as Hin.
      { rewrite elem_of_intersection, dom_sl_under, Hret, elem_of_dom. split; [done|]. split; [done|]. by exists r. }
      rewrite Hi in Hin. by apply elem_of_empty in Hin.
  - intros (Hn & Hkn & He & Hr). split; [|split; [split; [split|]|]]; try done.
    + apply set_eq. intros q. split; [|by rewrite elem_of_empty]. rewrite elem_of_intersection, dom_sl_under, Hret.
      intros ((Hq & Hpq) & _ & r & Hrk & Hrq). exfalso. destruct (Hr r Hrk) as [H1 H2].
      assert (is_Some (v_ldb w !! r)) as Hrd.
      { apply elem_of_dom. clear H1 H2 Hpq. assert (r ≠ []) as Hrn by (by intros ->).
        revert Hq Hrq. induction q as [|x q IH] using rev_ind; intros Hq Hrq; [by apply prefix_nil_inv in Hrq|].
        apply prefix_snoc_inv in Hrq as [Hrq| ->]; [|done]. apply IH; [|done].
        apply Ht in Hq as [_ Hq]. rewrite parent_snoc in Hq. apply Hq. intros ->. by apply prefix_nil_inv in Hrq. }
      destruct (prefix_weak_total p r q Hpq Hrq) as [?|?]; [by apply H2|by apply H1].
    + intros (_ & r & Hrk & Hrp). by destruct (Hr r Hrk).
Qed.
Print Assumptions C27_stale.

(** ** Examples *)
Example C24_C27_hypotheses : mounted exC (w_fs exW) ∧ current exC exW ∧ tree_ok (v_ldb exW) ∧ w_last exW = Some 10%Z.
Proof.
  split; [apply ex_mounted|]. split; [apply ex_current|]. split; [|done].
  intros p Hp. cut (set_Forall (λ p : path, p ≠ [] ∧ (parent p ≠ [] → parent p ∈ dom ex_ldb)) (dom ex_ldb)).
  { intros H. by apply H. }
  apply (bool_decide_unpack _). vm_compute. exact I.
Qed.
Example C24_example :
  match (compute_added exC exW).2 with
  | Ok (a, b) => set_is a [e "new"; e "s"] && set_is b [e "n2"]
  | Err _ => false
  end = true.
Proof. vm_compute. reflexivity. Qed.
Example C25_example :
  match (compute_deleted exC exW).2 with
  | Ok (dl, dr, tr) => set_is dl [e "gl"] && set_is dr [e "del2"] && set_is tr [e "del"]
  | Err _ => false
  end = true.
Proof. vm_compute. reflexivity. Qed.
Example C26_example :
  match (compute_modified exC exW).2 with
  | Ok (a, b) => set_is a [e "m"] && set_is b [e "rm"]
  | Err _ => false
  end = true.
Proof. vm_compute. reflexivity. Qed.
Example C27_example :
  match (compute_stale exC {[e "d" ++ e "a"]} exW).2 with
  | Ok s => set_is s [e "b"; e "m"; e "rm"; e "gl"]
  | Err _ => false
  end = true.
Proof. vm_compute. reflexivity. Qed.
