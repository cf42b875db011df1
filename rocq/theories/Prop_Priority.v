(** Property theorems C29-C32. *)
From Coq Require Import QArith Qcanon.
From Verif Require Import PriorityProofs DBInv.
From stdpp Require Import options.

(** The disk usage of a directory: of all remote paths at and below it. *)
Definition usage (size : path → option Z) (rdb : gmap path rdata) (p : path) : Z :=
  set_sum (λ q, default 0%Z (size q)) (filter (λ q, p `prefix_of` q) (dom rdb)).
(** The known files that are neither selected nor below a selected directory:
    they are links. *)
Definition links (ldb : gmap path ldata) (dirs files : gset path) : gset path :=
  filter (λ p, p ∉ files ∧ Forall (λ d, ¬ d `prefix_of` p) (elements dirs))
         (dom (filter (λ kv, ld_dir kv.2 = false) ldb)).

Lemma mapM_zsum (f : path → option Z) l k : mapM f l = Some k → foldr Z.add 0%Z k = zsum (λ q, default 0%Z (f q)) l.
Proof.
  intros E. apply mapM_Some in E. induction E as [|x y l k Hx _ IH]; simpl; [done|]. by rewrite Hx, IH.
Qed.
Lemma dir_size_usage size rdb p z : dir_size size rdb p = Some z → z = usage size rdb p.
Proof.
  unfold dir_size. intros E. apply fmap_Some in E as (k & Ek & ->). rewrite (mapM_zsum _ _ _ Ek).
  unfold usage, set_sum. f_equal. f_equal. apply set_eq. intros q. rewrite elem_of_filter, !elem_of_dom.
  unfold is_Some, sr_get. setoid_rewrite s_query_lookup. simpl. naive_solver.
Qed.
Lemma file_rows_elem (ldb : gmap path ldata) l p d :
  l ≡ₚ map_to_list (sl_get ldb None (Some false) None) → (p, d) ∈ l ↔ ldb !! p = Some d ∧ ld_dir d = false.
Proof. intros ->. rewrite elem_of_map_to_list, sl_get_lookup. naive_solver. Qed.

Lemma prioritize_files_inv account S size rows exclude limit rem sel :
  NoDup (map fst rows) →
  prioritize_files account S size rows exclude limit = Some (rem, sel) →
  ∃ rs, mapM (mk_row account size) (List.filter (not_below exclude) rows) = Some rs ∧
    foldl (pick_file S) (limit, ∅) (rank rs) = (rem, sel) ∧
    NoDup (map r_path (rank rs)) ∧
    (∀ r, r ∈ rank rs ↔ ∃ d, (r_path r, d) ∈ rows ∧ (∀ e, e ∈ exclude → ¬ e `prefix_of` r_path r) ∧
            size (r_path r) = Some (r_size r) ∧ r_adj r = adj account (ld_prio d) (r_size r)).
Proof.
  intros Hnd E. unfold prioritize_files in E. fold (not_below exclude) in E.
  change (λ pd : list (list N) * ldata, negb (bool_decide (Exists (λ e, e `prefix_of` pd.1) (elements exclude))))
    with (not_below exclude) in E.
  destruct (mapM _ _) as [rs|] eqn:Em; simpl in E; [|done]. injection E as E. exists rs. split; [done|]. split; [done|].
  split.
  - rewrite rank_perm. assert (map r_path rs = map fst (List.filter (not_below exclude) rows)) as ->.
    + eapply mapM_fmap; [|exact Em]. intros [p d] y. unfold mk_row. simpl. destruct (size p); [|done]. intros Ey. by injection Ey as <-.
    + by apply NoDup_map_filter.
  - intros r. rewrite rank_perm, (mapM_elem _ _ _ Em). split.
    + intros ([p d] & Hin & Hr). apply elem_of_list_In, filter_In in Hin as [Hin Hb]. apply elem_of_list_In in Hin.
      unfold mk_row in Hr. simpl in Hr. destruct (size p) as [z|] eqn:Ez; [|done]. injection Hr as <-. simpl.
      exists d. split; [done|]. split; [exact (proj1 (not_below_true _ _) Hb)|]. done.
    + intros (d & Hin & Hb & Hz & Ha). exists (r_path r, d). split.
      * apply elem_of_list_In, filter_In. split; [by apply elem_of_list_In|]. by apply not_below_true.
      * unfold mk_row. simpl. rewrite Hz. destruct r; simpl in *. by rewrite Ha.
Qed.
Lemma sel_sum S f rs sel :
  NoDup (map r_path rs) → sel ⊆ list_to_set (map r_path rs) → (∀ r, r ∈ rs → f (r_path r) = r_size r) →
  zsum (λ r, if bool_decide (r_path r ∈ sel) then r_size r - S else 0)%Z rs = (set_sum f sel - Z.of_nat (size sel) * S)%Z.
Proof.
  revert sel. induction rs as [|r rs IH]; intros sel Hnd Hsub Hf; simpl.
  - assert (sel = ∅) as -> by (apply set_eq; intros x; specialize (Hsub x); set_solver).
    rewrite set_sum_empty, size_empty. lia.
  - simpl in Hnd. inversion_clear Hnd as [|? ? Hr Hnd']. case_bool_decide as Hin.
    + assert (sel = {[r_path r]} ∪ sel ∖ {[r_path r]}) as E by (apply set_eq; intros x; destruct (decide (x = r_path r)); set_solver).
      rewrite (zsum_ext _ (λ r0, if bool_decide (r_path r0 ∈ sel ∖ {[r_path r]}) then (r_size r0 - S)%Z else 0%Z) rs).
      * rewrite (IH (sel ∖ {[r_path r]})); [|done| |].
        -- rewrite E at 3 4. rewrite set_sum_union by set_solver. rewrite (size_union {[r_path r]} (sel ∖ {[r_path r]})) by set_solver.
           rewrite set_sum_singleton, size_singleton, (Hf r) by left. lia.
        -- intros x Hx. apply elem_of_difference in Hx as [Hx Hne]. apply Hsub in Hx. simpl in Hx. set_solver.
        -- intros r' Hr'. apply Hf. by right.
      * intros r' Hr'. rewrite (bool_decide_ext (r_path r' ∈ sel) (r_path r' ∈ sel ∖ {[r_path r]})); [done|].
        assert (r_path r' ≠ r_path r) by (intros Heq; apply Hr; rewrite <-Heq; by apply elem_of_list_fmap_1). set_solver.
    + rewrite IH; [lia|done| |].
      * intros x Hx. pose proof (Hsub x Hx) as Hx'. simpl in Hx'. set_solver.
      * intros r' Hr'. apply Hf. by right.
Qed.

(** ** C29 The storage limit.
    [excl]: size of the excluded local files; [S]: size of one link.  The
    first part says that the reported remaining space is exact. *)
Theorem C29_storage_limit account S storage excl sized sizef ldb rdb iter rem dirs files :
  (∀ l, iter l ≡ₚ l) →
  select account S storage excl sized sizef ldb rdb iter = Some (rem, dirs, files) →
  let used := (excl + set_sum (usage sized rdb) dirs + set_sum (λ f, default 0%Z (sizef f)) files
               + Z.of_nat (size (links ldb dirs files)) * S)%Z in
  (used + rem = storage)%Z ∧ (dirs ∪ files ≠ ∅ → (used <= storage)%Z).
Proof.
  intros Hi E. unfold select in E.
  destruct (prioritize_dirs _ _ _ _ _ _ _ _) as [[rem1 dirs1]|] eqn:Ed; simpl in E; [|done].
  destruct (prioritize_files _ _ _ _ _ _) as [[rem2 files2]|] eqn:Ef; simpl in E; [|done].
  injection E as -> -> ->.
  destruct (prioritize_dirs_inv _ _ _ _ _ _ _ _ _ _ Hi Ed) as (st & rs & I & -> & -> & Hsome).
  set (rows := iter (map_to_list (sl_get ldb None (Some false) None))) in *.
  destruct (prioritize_files_inv _ _ _ _ _ _ _ _ (NoDup_map_fst_to_list _ _ (Hi _)) Ef)
    as (fs & _ & Efold & Hnd & Hfs).
  destruct (pick_file_inv _ _ _ _ _ Hnd Efold) as (Hsub & Hrem & Hpos).
  assert (Hfile : ∀ p d, (p, d) ∈ rows ↔ ldb !! p = Some d ∧ ld_dir d = false).
  { intros p d. apply file_rows_elem. apply Hi. }
  rewrite (sel_sum S (λ f, default 0%Z (sizef f)) (rank fs) files Hnd Hsub) in Hrem.
  2:{ intros r Hr. apply Hfs in Hr as (d & _ & _ & Hz & _). by rewrite Hz. }
  assert (set_sum (usage sized rdb) (ds_dirs st) = set_sum (λ p, default 0%Z (dir_size sized rdb p)) (ds_dirs st)) as Eu.
  { apply set_sum_ext. intros d Hd. destruct (Hsome d Hd) as [z Hz]. rewrite Hz. simpl. symmetry.
    by apply dir_size_usage. }
  set (allf := dom (filter (λ kv : path * ldata, ld_dir kv.2 = false) ldb)).
  assert (∀ p, p ∈ allf ↔ is_file ldb p) as Hallf.
  { intros p. unfold allf. rewrite elem_of_dom. unfold is_Some. setoid_rewrite map_filter_lookup_Some. done. }
  assert (dom (sl_get ldb None (Some false) None) = allf) as Edom.
  { apply set_eq. intros p. rewrite Hallf, elem_of_dom. unfold is_Some, is_file. setoid_rewrite sl_get_lookup. naive_solver. }
  assert (∀ p, p ∈ files → is_file ldb p ∧ ∀ e, e ∈ ds_dirs st → ¬ e `prefix_of` p) as Hfl.
  { intros p Hp. apply Hsub, elem_of_list_to_set, elem_of_list_fmap in Hp as (r & -> & Hr).
    apply Hfs in Hr as (d & Hd & Hb & _). apply Hfile in Hd. split; [by exists d|done]. }
  assert (allf = ds_files st ∪ files ∪ links ldb (ds_dirs st) files) as Epart.
  { apply set_eq. intros p. rewrite !elem_of_union. unfold links. rewrite elem_of_filter.
    fold allf. rewrite (di_files _ _ _ _ _ _ _ I), Hallf. split.
    - intros Hp. destruct (decide (p ∈ files)) as [?|Hn]; [by left; right|].
      destruct (decide (Exists (λ d, d `prefix_of` p) (elements (ds_dirs st)))) as [He|He].
      + apply Exists_exists in He as (d & Hd & Hpre). apply elem_of_elements in Hd. left; left. eauto.
      + right. split; [|done]. split; [done|]. apply Forall_forall. intros d Hd Hpre. apply He. apply Exists_exists. eauto.
    - intros [[[? _]|?]|[_ ?]]; [done|by apply Hfl|done]. }
  assert (size allf = size (ds_files st) + size files + size (links ldb (ds_dirs st) files)) as Esz.
  { rewrite Epart. rewrite size_union, size_union; [done| |].
    - intros p H1 H2. apply Hfl in H2 as [_ H2]. apply (di_files _ _ _ _ _ _ _ I) in H1 as (_ & d & Hd & Hp). by apply (H2 d).
    - intros p H1 H2. unfold links in H2. apply elem_of_filter in H2 as [[Hn Hf] _].
      apply elem_of_union in H1 as [H1|H1]; [|done]. apply (di_files _ _ _ _ _ _ _ I) in H1 as (_ & d & Hd & Hp).
      rewrite Forall_forall in Hf. apply (Hf d); [by apply elem_of_elements|done]. }
  pose proof (di_rem _ _ _ _ _ _ _ I) as Irem. rewrite Edom in Irem.
  cbv zeta. rewrite Eu.
  assert (excl + set_sum (λ p, default 0%Z (dir_size sized rdb p)) (ds_dirs st)
          + set_sum (λ f, default 0%Z (sizef f)) files + Z.of_nat (size (links ldb (ds_dirs st) files)) * S + rem = storage)%Z as Hacc by lia.
  split; [done|]. intros Hne.
  enough (0 <= rem)%Z by lia.
  destruct (decide (files = ∅)) as [->|Hfn]; [|by apply Z.lt_le_incl, Hpos].
  assert (0 <= ds_rem st)%Z by (apply (di_pos _ _ _ _ _ _ _ I); set_solver).
  rewrite set_sum_empty, size_empty in Hrem. lia.
Qed.
Print Assumptions C29_storage_limit.

(** ** C30 The selection does not depend on the order of the rows, nor on the
    local flags. *)
Lemma mapM_map {A B C} (h : A → B) (g : B → option C) (f : A → option C) l :
  (∀ x, f x = g (h x)) → mapM f l = mapM g (map h l).
Proof. intros Hf. induction l as [|x l IH]; simpl; [done|]. by rewrite Hf, IH. Qed.
Definition keyed (d : ldata) : bool * Qc := (ld_dir d, ld_prio d).
Lemma keyed_rows (ldb ldb' : gmap path ldata) b :
  keyed <$> ldb = keyed <$> ldb' →
  map (λ pd, (pd.1, ld_prio pd.2)) (map_to_list (sl_get ldb None (Some b) None))
  ≡ₚ map (λ pd, (pd.1, ld_prio pd.2)) (map_to_list (sl_get ldb' None (Some b) None)).
Proof.
  intros E.
  assert (Hk : ∀ p, keyed <$> ldb !! p = keyed <$> ldb' !! p).
  { intros p. rewrite <-!lookup_fmap. by rewrite E. }
  assert (Hnd : ∀ m : gmap path ldata, NoDup (map (λ pd : path * ldata, (pd.1, ld_prio pd.2)) (map_to_list (sl_get m None (Some b) None)))).
  { intros m. apply (NoDup_fmap_1 fst). rewrite <-list_fmap_compose. apply NoDup_fst_map_to_list. }
  apply NoDup_Permutation; [apply Hnd|apply Hnd|].
  intros [p q]. rewrite !elem_of_list_fmap.
  assert (∀ m, (∃ y, (p, q) = (y.1, ld_prio y.2) ∧ y ∈ map_to_list (sl_get m None (Some b) None))
     ↔ keyed <$> m !! p = Some (b, q)) as Hx.
  { intros m. split.
    - intros ([p' d] & Ey & Hin). simplify_eq/=. apply elem_of_map_to_list, sl_get_lookup in Hin as (Hm & Hd & _).
      rewrite Hm. simpl. unfold keyed. by rewrite (Hd b).
    - intros Hm. apply fmap_Some in Hm as (d & Hd & Ed). unfold keyed in Ed. simplify_eq. exists (p, d). split; [done|].
      apply elem_of_map_to_list, sl_get_lookup. naive_solver. }
  rewrite !Hx, Hk. done.
Qed.
Theorem C30_selection_predictable account S storage excl sized sizef ldb ldb' rdb iter iter' :
  (∀ l, iter l ≡ₚ l) → (∀ l, iter' l ≡ₚ l) → (∀ p, p ∈ dom ldb → valid_comps p) →
  (∀ p, keyed <$> ldb !! p = keyed <$> ldb' !! p) →
  select account S storage excl sized sizef ldb rdb iter = select account S storage excl sized sizef ldb' rdb iter'.
Proof.
  intros Hi Hi' Hv Hk.
  assert (keyed <$> ldb = keyed <$> ldb') as E by (apply map_eq; intros p; by rewrite !lookup_fmap).
  assert (∀ b p, contained ldb b p = contained ldb' b p) as Hcont.
  { intros b p. apply set_eq. intros q. rewrite !elem_of_contained. specialize (Hk q).
    destruct (ldb !! q) as [d|] eqn:E1, (ldb' !! q) as [d'|] eqn:E2; simpl in Hk; [|done|done|naive_solver].
    unfold keyed in Hk. simplify_eq. naive_solver. }
  assert (dom (sl_get ldb None (Some false) None) = dom (sl_get ldb' None (Some false) None)) as Hdom.
  { apply set_eq. intros q. rewrite !elem_of_dom. unfold is_Some. setoid_rewrite sl_get_lookup. specialize (Hk q).
    destruct (ldb !! q) as [d|] eqn:E1, (ldb' !! q) as [d'|] eqn:E2; simpl in Hk; [|done|done|naive_solver].
    unfold keyed in Hk. simplify_eq. naive_solver. }
  assert (∀ limit, prioritize_dirs account S storage sized ldb rdb iter limit
                   = prioritize_dirs account S storage sized ldb' rdb iter' limit) as Hdirs.
  { intros limit. unfold prioritize_dirs. rewrite Hdom.
    set (g := λ pq : path * Qc, match dir_size sized rdb pq.1 with
                 | Some z => Some (Row pq.1 (adj account pq.2 z) z) | None => None end).
    rewrite !(mapM_map (λ pd : path * ldata, (pd.1, ld_prio pd.2)) g (mk_drow account sized rdb)) by done.
    set (l := map _ (iter _)). set (l' := map _ (iter' _)).
    assert (l ≡ₚ l') as Hp.
    { unfold l, l'. rewrite Hi, Hi'. by apply keyed_rows. }
    destruct (mapM g l) as [rs|] eqn:Em.
    2:{ by rewrite (mapM_perm_none _ _ _ Hp Em). }
    destruct (mapM_perm _ _ _ _ Hp Em) as (rs' & Em' & Hrs). rewrite Em'. simpl.
    assert (map r_path rs = map fst l) as Epath.
    { eapply mapM_fmap; [|exact Em]. intros [p q] y. unfold g. simpl. destruct (dir_size sized rdb p); [|done]. intros Ey. by injection Ey as <-. }
    assert (NoDup (map r_path rs)) as Hnd.
    { rewrite Epath. unfold l. rewrite map_map. simpl. rewrite Hi. apply NoDup_fst_map_to_list. }
    assert (rows_ok rs) as Hok.
    { intros r Hr. apply Hv. assert (r_path r ∈ map fst l) as Hin by (rewrite <-Epath; by apply elem_of_list_fmap_1).
      unfold l in Hin. rewrite map_map in Hin. apply elem_of_list_fmap in Hin as ([p d] & Ep & Hin). rewrite Hi in Hin.
      apply elem_of_map_to_list, sl_get_lookup in Hin as (Hm & _). rewrite Ep. simpl. apply elem_of_dom. eauto. }
    rewrite (rank_unique rs rs' Hok Hnd Hrs).
    assert (list_to_map (M:=gmap path Z) (map (λ r, (r_path r, r_size r)) rs)
            = list_to_map (map (λ r, (r_path r, r_size r)) rs')) as ->.
    { apply list_to_map_proper; [|by apply Permutation_map]. rewrite <-list_fmap_compose. done. }
    set (dz := λ p, default 0%Z _).
    assert (∀ rs st, foldl (pick_dir S storage ldb dz) st rs = foldl (pick_dir S storage ldb' dz) st rs) as ->; [|done].
    clear -Hcont. induction rs as [|r rs IH]; intros st; simpl; [done|].
    assert (pick_dir S storage ldb dz st r = pick_dir S storage ldb' dz st r) as ->; [|apply IH].
    unfold pick_dir. by rewrite !Hcont. }
  unfold select. rewrite Hdirs.
  destruct (prioritize_dirs _ _ _ _ _ _ iter' _) as [[rem dirs]|]; simpl; [|done].
  assert (prioritize_files account S sizef (iter (map_to_list (sl_get ldb None (Some false) None))) dirs rem
          = prioritize_files account S sizef (iter' (map_to_list (sl_get ldb' None (Some false) None))) dirs rem) as ->; [|done].
  unfold prioritize_files.
  change (λ pd : list (list N) * ldata, negb (bool_decide (Exists (λ e, e `prefix_of` pd.1) (elements dirs))))
    with (not_below dirs).
  set (g := λ pq : path * Qc, match sizef pq.1 with
               | Some z => Some (Row pq.1 (adj account pq.2 z) z) | None => None end).
  rewrite !(mapM_map (λ pd : path * ldata, (pd.1, ld_prio pd.2)) g (mk_row account sizef)) by done.
  assert (∀ l : list (path * ldata), map (λ pd, (pd.1, ld_prio pd.2)) (List.filter (not_below dirs) l)
     = List.filter (λ pq : path * Qc, negb (bool_decide (Exists (λ e, e `prefix_of` pq.1) (elements dirs))))
         (map (λ pd, (pd.1, ld_prio pd.2)) l)) as Hfm.
  { intros l. induction l as [|x l IH]; simpl; [done|]. unfold not_below at 1. destruct (bool_decide _); simpl; [done|]. by rewrite IH. }
  rewrite !Hfm.
  set (l := List.filter _ (map _ (iter _))). set (l' := List.filter _ (map _ (iter' _))).
  assert (l ≡ₚ l') as Hp.
  { unfold l, l'. apply filter_perm. rewrite Hi, Hi'. by apply keyed_rows. }
  destruct (mapM g l) as [rs|] eqn:Em.
  2:{ by rewrite (mapM_perm_none _ _ _ Hp Em). }
  destruct (mapM_perm _ _ _ _ Hp Em) as (rs' & Em' & Hrs). rewrite Em'. simpl.
  assert (map r_path rs = map fst l) as Epath.
  { eapply mapM_fmap; [|exact Em]. intros [p q] y. unfold g. simpl. destruct (sizef p); [|done]. intros Ey. by injection Ey as <-. }
  assert (NoDup (map r_path rs)) as Hnd.
  { rewrite Epath. unfold l. apply NoDup_map_filter. rewrite map_map. simpl. rewrite Hi. apply NoDup_fst_map_to_list. }
  assert (rows_ok rs) as Hok.
  { intros r Hr. apply Hv. assert (r_path r ∈ map fst l) as Hin by (rewrite <-Epath; by apply elem_of_list_fmap_1).
    unfold l in Hin. apply elem_of_list_fmap in Hin as (pq & Ep & Hin). rewrite Ep.
    apply elem_of_list_In, filter_In in Hin as [Hin _]. apply elem_of_list_In in Hin.
    apply elem_of_list_fmap in Hin as ([p' d] & -> & Hin). rewrite Hi in Hin.
    apply elem_of_map_to_list, sl_get_lookup in Hin as (Hm & _). simpl. apply elem_of_dom. eauto. }
  by rewrite (rank_unique rs rs' Hok Hnd Hrs).
Qed.
Print Assumptions C30_selection_predictable.

(** ** C31 Priority order.
    [L] is the ranking of the files that are not below a selected directory;
    a file stays out exactly when, at its turn, it does not fit. *)
Theorem C31_priority_order account S sizef rows exclude limit rem sel :
  NoDup (map fst rows) →
  prioritize_files account S sizef rows exclude limit = Some (rem, sel) →
  ∃ L : list row,
    (∀ r, r ∈ L ↔ ∃ d, (r_path r, d) ∈ rows ∧ (∀ e, e ∈ exclude → ¬ e `prefix_of` r_path r)
        ∧ sizef (r_path r) = Some (r_size r)
        ∧ r_adj r = (if account then if decide (r_size r = 0%Z) then 0 else ld_prio d / Q2Qc (inject_Z (r_size r))
                     else ld_prio d)%Qc)
    ∧ NoDup (map r_path L)
    ∧ (∀ i j a b, L !! i = Some a → L !! j = Some b → i < j →
         (r_adj b < r_adj a)%Qc ∨ (r_adj a = r_adj b ∧ str_leb (rel_path (r_path a)) (rel_path (r_path b)) = true))
    ∧ (∀ p, p ∈ sel → p ∈ map r_path L)
    ∧ (∀ pre r post, L = pre ++ r :: post →
         (r_path r ∉ sel ↔
          (limit - zsum (λ x, if bool_decide (r_path x ∈ sel) then r_size x - S else 0) pre <= r_size r - S)%Z)).
Proof.
  intros Hnd0 E. destruct (prioritize_files_inv _ _ _ _ _ _ _ _ Hnd0 E) as (rs & _ & Efold & Hnd & Hel).
  exists (rank rs). split; [|split; [done|split; [|split]]].
  - intros r. rewrite Hel. unfold adj.
    assert (∀ q : Qc, (if account then if (r_size r =? 0)%Z then 0%Qc else (q / Q2Qc (inject_Z (r_size r)))%Qc else q)
      = (if account then if decide (r_size r = 0%Z) then 0 else q / Q2Qc (inject_Z (r_size r)) else q)%Qc) as Hq.
    { intros q. destruct account; [|done]. destruct (Z.eqb_spec (r_size r) 0), (decide (r_size r = 0%Z)); done. }
    by setoid_rewrite Hq.
  - intros i j a b Ha Hb Hij. apply before_spec. eapply sorted_lookup; [apply rank_sorted|done|done|done].
  - intros p Hp. destruct (pick_file_inv _ _ _ _ _ Hnd Efold) as (Hsub & _).
    apply Hsub in Hp. by apply elem_of_list_to_set in Hp.
  - intros pre r post EL. rewrite EL in Hnd, Efold.
    pose proof (pick_file_turn S limit pre r post Hnd) as Ht. cbv zeta in Ht. rewrite Efold in Ht. simpl in Ht.
    rewrite Ht. lia.
Qed.
Print Assumptions C31_priority_order.

(** The same for directories: one is left out only if it is larger than the
    storage limit, or if it does not fit together with some kept directories of
    higher rank and a link for every file outside of them. *)
Theorem C31_directories account S storage size ldb rdb iter limit rem dirs :
  (∀ l, iter l ≡ₚ l) →
  prioritize_dirs account S storage size ldb rdb iter limit = Some (rem, dirs) →
  ∃ L : list row,
    (∀ r, r ∈ L ↔ ∃ d, ldb !! r_path r = Some d ∧ ld_dir d = true ∧ r_size r = usage size rdb (r_path r)
        ∧ r_adj r = (if account then if decide (r_size r = 0%Z) then 0 else ld_prio d / Q2Qc (inject_Z (r_size r))
                     else ld_prio d)%Qc)
    ∧ NoDup (map r_path L)
    ∧ (∀ i j a b, L !! i = Some a → L !! j = Some b → i < j →
         (r_adj b < r_adj a)%Qc ∨ (r_adj a = r_adj b ∧ str_leb (rel_path (r_path a)) (rel_path (r_path b)) = true))
    ∧ (∀ pre r post, L = pre ++ r :: post → (∀ d, d ∈ dirs → ¬ d `prefix_of` r_path r) →
         (storage < r_size r)%Z ∨
         ∃ D : gset path, (∀ d, d ∈ D → d ∈ map r_path pre ∧ (∃ e, e ∈ dirs ∧ e `prefix_of` d) ∧ ¬ r_path r `prefix_of` d)
           ∧ (∀ d e, d ∈ D → e ∈ D → ¬ below d e)
           ∧ (limit < set_sum (usage size rdb) ({[r_path r]} ∪ D)
                + Z.of_nat (stdpp.base.size (links ldb ({[r_path r]} ∪ D) ∅)) * S)%Z).
Proof.
  intros Hi E. destruct (prioritize_dirs_turn _ _ _ _ _ _ _ _ _ _ Hi E) as (L & HL & Hall & Hnd & Hso & Ht).
  assert (Hus : ∀ p d, ldb !! p = Some d → ld_dir d = true → dir_size size rdb p = Some (usage size rdb p)).
  { intros p d Hp Hd. destruct (Hall p d Hp Hd) as [z Hz]. by rewrite <-(dir_size_usage _ _ _ _ Hz). }
  exists L. split; [|split; [done|split]].
  - intros r. rewrite HL. unfold adj. split.
    + intros (d & Hd & Hdir & Hz & Ha). exists d. split; [done|]. split; [done|]. split; [by apply dir_size_usage|].
      rewrite Ha. destruct account; [|done]. destruct (Z.eqb_spec (r_size r) 0), (decide (r_size r = 0%Z)); done.
    + intros (d & Hd & Hdir & Hz & Ha). exists d. split; [done|]. split; [done|]. split; [rewrite Hz; by eapply Hus|].
      rewrite Ha. destruct account; [|done]. destruct (Z.eqb_spec (r_size r) 0), (decide (r_size r = 0%Z)); done.
  - intros i j a b Ha Hb Hij. apply before_spec. eapply sorted_lookup; [exact Hso|done|done|done].
  - intros pre r post EL Hun. destruct (Ht pre r post EL Hun) as [|(D & D' & HD & HD' & Han & Hlt)]; [by left|]. right.
    assert (r ∈ L) as (dr & Hdr & Hdd & _)%HL by (rewrite EL; set_solver).
    exists (D' ∖ {[r_path r]}).
    assert ({[r_path r]} ∪ D' ∖ {[r_path r]} = D') as ->.
    { apply set_eq. intros q. rewrite elem_of_union, elem_of_difference, elem_of_singleton. split.
      - intros [->|[? _]]; [|done]. apply HD'. by left.
      - intros Hq. destruct (decide (q = r_path r)); [by left|by right]. }
    split; [|split].
    + intros d [[->|[Hd Hn]]%HD' Hne]%elem_of_difference; [set_solver|]. destruct (HD d Hd). done.
    + intros d e [Hd _]%elem_of_difference [He _]%elem_of_difference [Hp Hne]%below_prefix. apply Hne. by apply Han.
    + assert (set_sum (usage size rdb) D' = set_sum (λ p, default 0%Z (dir_size size rdb p)) D') as ->.
      { apply set_sum_ext. intros q [->|[Hq _]]%HD'; [by rewrite (Hus _ _ Hdr Hdd)|].
        destruct (HD q Hq) as [Hp _]. apply elem_of_list_fmap in Hp as (x & -> & Hx).
        assert (x ∈ L) as (dx & Hx1 & Hx2 & _)%HL by (rewrite EL; set_solver). by rewrite (Hus _ _ Hx1 Hx2). }
      assert (links ldb D' ∅ = filter (λ q, Forall (λ d, ¬ d `prefix_of` q) (elements D')) (dom (sl_get ldb None (Some false) None))) as ->; [|done].
      unfold links. assert (dom (sl_get ldb None (Some false) None) = dom (filter (λ kv : path * ldata, ld_dir kv.2 = false) ldb)) as ->.
      { apply set_eq. intros q. rewrite !elem_of_dom. split; intros [x Hx]; exists x.
        - apply sl_get_lookup in Hx as (Hx & Hd & _). apply map_filter_lookup_Some. split; [done|]. by apply Hd.
        - apply map_filter_lookup_Some in Hx as [Hx Hd]. apply sl_get_lookup. naive_solver. }
      apply set_eq. intros q. rewrite !elem_of_filter. split; [by intros [[_ ?] ?]|]. intros [? ?]. split; [|done]. split; [set_solver|done].
Qed.
Print Assumptions C31_directories.

(** ** C32 Directories are kept whole. *)
Theorem C32_directories_whole account S storage excl sized sizef ldb rdb iter rem dirs files :
  (∀ l, iter l ≡ₚ l) →
  select account S storage excl sized sizef ldb rdb iter = Some (rem, dirs, files) →
  (∀ d e, d ∈ dirs → e ∈ dirs → ¬ below e d)
  ∧ (∀ d, d ∈ dirs → (usage sized rdb d <= storage)%Z ∧ ∃ x, ldb !! d = Some x ∧ ld_dir x = true)
  ∧ (∀ f, f ∈ files → (∃ x, ldb !! f = Some x ∧ ld_dir x = false) ∧ ∀ d, d ∈ dirs → ¬ d `prefix_of` f).
Proof.
  intros Hi E. unfold select in E.
  destruct (prioritize_dirs _ _ _ _ _ _ _ _) as [[rem1 dirs1]|] eqn:Ed; simpl in E; [|done].
  destruct (prioritize_files _ _ _ _ _ _) as [[rem2 files2]|] eqn:Ef; simpl in E; [|done].
  injection E as -> -> ->.
  destruct (prioritize_dirs_inv _ _ _ _ _ _ _ _ _ _ Hi Ed) as (st & rs & I & -> & -> & Hsome).
  destruct (prioritize_files_inv _ _ _ _ _ _ _ _ (NoDup_map_fst_to_list _ _ (Hi _)) Ef)
    as (fs & _ & Efold & Hnd & Hfs).
  destruct (pick_file_inv _ _ _ _ _ Hnd Efold) as (Hsub & _).
  split; [|split].
  - intros d e Hd He Hb. apply below_prefix in Hb as [Hp Hne]. apply Hne. by apply (di_anti _ _ _ _ _ _ _ I).
  - intros d Hd. split; [|by apply (di_dir _ _ _ _ _ _ _ I)].
    destruct (Hsome d Hd) as [z Hz]. rewrite <-(dir_size_usage _ _ _ _ Hz).
    pose proof (di_small _ _ _ _ _ _ _ I d Hd) as Hs. simpl in Hs. by rewrite Hz in Hs.
  - intros f Hf. apply Hsub, elem_of_list_to_set, elem_of_list_fmap in Hf as (r & -> & Hr).
    apply Hfs in Hr as (d & Hd & Hb & _). apply (file_rows_elem ldb _ _ _ (Hi _)) in Hd. eauto.
Qed.
Print Assumptions C32_directories_whole.

(** A database with a directory that fits, one that is too large, and files. *)
Local Notation pa := [lit "a"].
Local Notation pab := [lit "a"; lit "b"].
Local Notation pc := [lit "c"].
Local Notation pcd := [lit "c"; lit "d"].
Local Notation pe := [lit "e"].
Local Notation pf := [lit "f"].
Definition ex_ldb : gmap path ldata := list_to_map
  [(pa, LData true (Q2Qc 4) true); (pab, LData false (Q2Qc 4) true); (pc, LData true (Q2Qc 9) false);
   (pcd, LData false (Q2Qc 9) false); (pe, LData false (Q2Qc 7) false); (pf, LData false (Q2Qc 7) true)].
Definition ex_rdb : gmap path rdata := (λ d, RData (ld_dir d) 0) <$> ex_ldb.
Definition ex_sized (p : path) : option Z :=
  (list_to_map [(pa, 4096); (pab, 8192); (pc, 4096); (pcd, 90000); (pe, 40960); (pf, 20480)] : gmap path Z)%Z !! p.
Definition show_sel (r : option (Z * gset path * gset path)) : option (Z * list path * list path) :=
  (λ x, (x.1.1, elements x.1.2, elements x.2)) <$> r.
Example C29_C32_example :
  (∀ p, p ∈ dom ex_ldb → valid_comps p) ∧
  show_sel (select true 4096 60000 1000 ex_sized ex_sized ex_ldb ex_rdb id)
  = Some (18040%Z, [pa], [pf]) ∧
  show_sel (select false 4096 70000 1000 ex_sized ex_sized ex_ldb ex_rdb (@rev _))
  = Some (7560%Z, [pa], [pe]).
Proof.
  split; [|split; vm_compute; reflexivity].
  intros p Hp. apply elem_of_elements in Hp. revert p Hp. apply Forall_forall.
  apply (bool_decide_unpack _). vm_compute. exact I.
Qed.
Example C31_example :
  let rows := [(pe, LData false (Q2Qc 7) false); (pf, LData false (Q2Qc 7) true); (pab, LData false (Q2Qc 4) true)] in
  (λ x, (x.1, elements x.2)) <$> prioritize_files true 4096 ex_sized rows {[pa]} 30000 = Some (13616%Z, [pf]).
Proof. vm_compute. reflexivity. Qed.
(** "c" is smaller than the limit, but does not fit beside "a" and the links. *)
Example C31_directories_example :
  (λ x, (x.1, elements x.2)) <$> prioritize_dirs true 4096 100000 ex_sized ex_ldb ex_rdb id 99000 = Some (74424%Z, [pa])
  ∧ usage ex_sized ex_rdb pc = 94096%Z ∧ usage ex_sized ex_rdb pa = 12288%Z.
Proof. vm_compute. auto. Qed.
