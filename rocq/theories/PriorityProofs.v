(** Facts about [Priority]. *)
From Coq Require Import QArith Qcanon.
From Verif Require Export Priority.
From stdpp Require Import options.

(** Sorting twice sorts lexicographically. *)
Lemma isort_isort {A} (le1 le2 le12 : A → A → bool) l :
  (∀ a b, le2 a b = false → le12 b a = true) →
  (∀ a b, le2 a b = true → le1 a b = true → le12 a b = true) →
  (∀ a b c, le2 a b = true → le12 b c = true → le1 a c = true → le12 a c = true) →
  StronglySorted (PySort.le le1) l → StronglySorted (PySort.le le12) (isort le2 l).
Proof.
  intros H1 H2 H3. induction 1 as [|x l Hl IH Hx]; simpl; [constructor|].
  assert (∀ y, y ∈ isort le2 l → le1 x y = true) as Hle.
  { intros y Hy. rewrite elem_of_isort in Hy. rewrite Forall_forall in Hx. by apply Hx. }
  clear Hl Hx. induction IH as [|y l' Hl' IH' Hy]; simpl; [repeat constructor|].
  destruct (le2 x y) eqn:E.
  - constructor; [by constructor|]. constructor.
    + unfold PySort.le. apply H2; [done|]. apply Hle. left.
    + apply Forall_forall. intros z Hz. unfold PySort.le. apply (H3 x y z E).
      * rewrite Forall_forall in Hy. by apply Hy.
      * apply Hle. by right.
  - constructor; [apply IH'; intros z Hz; apply Hle; by right|].
    rewrite insert_sorted_perm. constructor; [by apply H1|done].
Qed.

(** The order of [rank]: decreasing adjusted priority, ties by path text. *)
Definition before (a b : row) : bool :=
  bool_decide (r_adj b < r_adj a)%Qc || (bool_decide (r_adj a = r_adj b) && path_le a b).

Lemma path_le_trans a b c : path_le a b = true → path_le b c = true → path_le a c = true.
Proof. apply str_leb_trans. Qed.
Lemma path_le_total a b : path_le a b = true ∨ path_le b a = true.
Proof. apply str_leb_total. Qed.
Lemma before_spec a b : before a b = true ↔ (r_adj b < r_adj a)%Qc ∨ (r_adj a = r_adj b ∧ path_le a b = true).
Proof. unfold before. by rewrite orb_true_iff, andb_true_iff, !bool_decide_eq_true. Qed.
Lemma rank_sorted rs : StronglySorted (PySort.le before) (rank rs).
Proof.
  unfold rank. apply isort_isort with (le1 := path_le).
  - intros a b. unfold prio_ge. rewrite bool_decide_eq_false, before_spec. intros H. left. by apply Qcnot_le_lt.
  - intros a b. unfold prio_ge. rewrite bool_decide_eq_true, before_spec. intros H Hp.
    destruct (Qcle_lt_or_eq _ _ H) as [?|E]; [by left|]. right. done.
  - intros a b c. unfold prio_ge. rewrite bool_decide_eq_true, !before_spec. intros H [Hlt|[E Hbc]] Hac.
    + left. by eapply Qclt_le_trans.
    + destruct (Qcle_lt_or_eq _ _ H) as [?|E']; [left; congruence|]. right. split; [congruence|done].
  - apply isort_sorted; [apply path_le_trans|apply path_le_total].
Qed.
Lemma rank_perm rs : rank rs ≡ₚ rs.
Proof. unfold rank. by rewrite !isort_perm. Qed.

Definition rows_ok (rs : list row) : Prop := ∀ r, r ∈ rs → valid_comps (r_path r).

Lemma rank_unique rs rs' :
  rows_ok rs → NoDup (map r_path rs) → rs ≡ₚ rs' → rank rs = rank rs'.
Proof.
  intros Hok Hnd Hp. apply (sorted_unique before); [|apply rank_sorted|apply rank_sorted|by rewrite !rank_perm].
  intros a b. rewrite rank_perm. intros Ha Hb.
  rewrite !before_spec. intros H1 H2.
  assert (path_le a b = true ∧ path_le b a = true) as [Hab Hba].
  { destruct H1 as [H1|[E1 H1]], H2 as [H2|[E2 H2]]; try done.
    - exfalso. exact (Qclt_not_le _ _ H1 (Qclt_le_weak _ _ H2)).
    - exfalso. rewrite E2 in H1. by apply Qclt_not_eq in H1.
    - exfalso. rewrite E1 in H2. by apply Qclt_not_eq in H2. }
  assert (r_path a = r_path b) as E.
  { apply rel_path_inj; [by apply Hok|by apply Hok|]. by apply str_leb_antisym. }
  apply elem_of_list_lookup in Ha as [i Hi]. apply elem_of_list_lookup in Hb as [j Hj].
  assert (i = j) as ->; [|congruence].
  eapply (NoDup_lookup (map r_path rs)); [done| |].
  - rewrite list_lookup_fmap, Hi. done.
  - rewrite list_lookup_fmap, Hj. simpl. by rewrite E.
Qed.

(** ** Files *)
Lemma zsum_app {A} (f : A → Z) l l' : zsum f (l ++ l') = (zsum f l + zsum f l')%Z.
Proof. induction l as [|x l IH]; simpl; [done|]. rewrite IH. lia. Qed.
Lemma zsum_perm {A} (f : A → Z) l l' : l ≡ₚ l' → zsum f l = zsum f l'.
Proof. induction 1; simpl; lia. Qed.
Lemma zsum_ext {A} (f g : A → Z) l : (∀ x, x ∈ l → f x = g x) → zsum f l = zsum g l.
Proof. induction l as [|x l IH]; intros Hx; simpl; [done|]. rewrite Hx by left. rewrite IH; [done|]. intros y Hy. apply Hx. by right. Qed.
Lemma zsum_map {A B} (f : B → Z) (g : A → B) l : zsum f (map g l) = zsum (λ x, f (g x)) l.
Proof. induction l as [|x l IH]; simpl; [done|]. by rewrite IH. Qed.
Definition set_sum (f : path → Z) (X : gset path) : Z := zsum f (elements X).
Lemma set_sum_union f X Y : X ## Y → set_sum f (X ∪ Y) = (set_sum f X + set_sum f Y)%Z.
Proof. intros Hd. unfold set_sum. rewrite <-zsum_app. apply zsum_perm. by apply elements_disj_union. Qed.
Lemma set_sum_singleton f p : set_sum f {[p]} = f p.
Proof. unfold set_sum. rewrite elements_singleton. simpl. lia. Qed.
Lemma set_sum_empty f : set_sum f ∅ = 0%Z.
Proof. unfold set_sum. by rewrite elements_empty. Qed.
Lemma set_sum_ext f g X : (∀ x, x ∈ X → f x = g x) → set_sum f X = set_sum g X.
Proof. intros Hx. apply zsum_ext. intros x. rewrite elem_of_elements. apply Hx. Qed.

(** What is chosen from a prefix of the ranking, by the rule of the code's
    documentation: go through the ranking and take whatever still fits. *)
Definition chosen (S limit : Z) (rs : list row) : gset path := (foldl (pick_file S) (limit, ∅) rs).2.

Lemma pick_file_inv S limit rs rem sel :
  NoDup (map r_path rs) →
  foldl (pick_file S) (limit, ∅) rs = (rem, sel) →
  sel ⊆ list_to_set (map r_path rs) ∧
  rem = (limit - zsum (λ r, if bool_decide (r_path r ∈ sel) then r_size r - S else 0) rs)%Z ∧
  (sel ≠ ∅ → 0 < rem)%Z.
Proof.
  revert rem sel. induction rs as [|r rs IH] using rev_ind; intros rem sel Hnd E.
  - simpl in E. injection E as <- <-. split; [set_solver|]. split; [simpl; lia|done].
  - rewrite foldl_app in E. simpl in E. destruct (foldl _ _ rs) as [rem0 sel0] eqn:E0.
    rewrite map_app in Hnd. apply NoDup_app in Hnd as (Hnd & Hdis & _).
    destruct (IH rem0 sel0 Hnd eq_refl) as (Hsub & Hrem & Hpos).
    assert (r_path r ∉ sel0) as Hr.
    { intros Hin. apply Hsub, elem_of_list_to_set in Hin. apply (Hdis _ Hin). simpl. left. }
    rewrite zsum_app. simpl. unfold pick_file in E.
    destruct (Z.ltb_spec 0 (rem0 - r_size r + S)); injection E as <- <-.
    + split; [|split].
      * rewrite map_app, list_to_set_app. simpl. set_solver.
      * rewrite bool_decide_true by set_solver.
        rewrite (zsum_ext _ (λ r0, if bool_decide (r_path r0 ∈ sel0) then (r_size r0 - S)%Z else 0%Z) rs); [lia|].
        intros r0 Hr0. assert (r_path r0 ≠ r_path r) as Hne.
        { intros Heq. apply (Hdis (r_path r0)); [by apply elem_of_list_fmap_1|]. rewrite Heq. simpl. left. }
        rewrite (bool_decide_ext (r_path r0 ∈ {[r_path r]} ∪ sel0) (r_path r0 ∈ sel0)); [done|]. set_solver.
      * intros _. lia.
    + split; [|split].
      * rewrite map_app, list_to_set_app. set_solver.
      * rewrite bool_decide_false by done. lia.
      * done.
Qed.
Lemma pick_file_mono S rs : ∀ st, st.2 ⊆ (foldl (pick_file S) st rs).2.
Proof.
  induction rs as [|r rs IH]; intros [rem sel]; simpl; [done|].
  etrans; [|apply IH]. unfold pick_file. destruct (0 <? _)%Z; simpl; set_solver.
Qed.
Lemma pick_file_new S rs : ∀ st p, p ∈ (foldl (pick_file S) st rs).2 → p ∈ st.2 ∨ p ∈ map r_path rs.
Proof.
  induction rs as [|r rs IH]; intros [rem sel] p; cbn [foldl]; [by left|]. intros Hp.
  apply IH in Hp as [Hp|Hp]; [|right; by right].
  unfold pick_file in Hp. destruct (0 <? _)%Z; simpl in Hp; [|by left].
  apply elem_of_union in Hp as [Hp|Hp]; [|by left]. right. apply elem_of_singleton in Hp as ->. left.
Qed.
(** A file is chosen exactly when it fits in what the chosen files before it
    leave. *)
Lemma pick_file_turn S limit pre r post :
  NoDup (map r_path (pre ++ r :: post)) →
  let sel := (foldl (pick_file S) (limit, ∅) (pre ++ r :: post)).2 in
  (r_path r ∈ sel ↔
   (0 < limit - zsum (λ r, if bool_decide (r_path r ∈ sel) then r_size r - S else 0) pre - r_size r + S)%Z).
Proof.
  intros Hnd sel. unfold sel. rewrite foldl_app. cbn [foldl].
  rewrite map_app in Hnd. apply NoDup_app in Hnd as (Hnd1 & Hdis & Hnd2).
  simpl in Hnd2. inversion_clear Hnd2 as [|? ? Hr Hnd3].
  destruct (foldl (pick_file S) (limit, ∅) pre) as [rem0 sel0] eqn:E0.
  destruct (pick_file_inv S limit pre rem0 sel0 Hnd1 E0) as (Hsub & Hrem & _).
  set (st := pick_file S (rem0, sel0) r).
  assert (∀ x, x ∈ pre → (r_path x ∈ (foldl (pick_file S) st post).2 ↔ r_path x ∈ sel0)) as Hpre.
  { intros x Hx. assert (r_path x ∈ map r_path pre) as Hxm by by apply elem_of_list_fmap_1.
    pose proof (Hdis _ Hxm) as Hn. apply not_elem_of_cons in Hn as [Hn1 Hn2]. split.
    - intros Hin. apply pick_file_new in Hin as [Hin|Hin]; [|done].
      unfold st, pick_file in Hin. destruct (0 <? _)%Z; simpl in Hin; [|done]. set_solver.
    - intros Hin. apply pick_file_mono. unfold st, pick_file. destruct (0 <? _)%Z; simpl; set_solver. }
  rewrite (zsum_ext _ (λ r0, if bool_decide (r_path r0 ∈ sel0) then (r_size r0 - S)%Z else 0%Z) pre).
  2:{ intros x Hx. by rewrite (bool_decide_ext _ _ (Hpre x Hx)). }
  rewrite <-Hrem.
  assert (r_path r ∉ sel0) as Hr0.
  { intros Hin. apply Hsub, elem_of_list_to_set in Hin. apply (Hdis _ Hin). left. }
  split.
  - intros Hin. apply pick_file_new in Hin as [Hin|Hin]; [|done].
    unfold st, pick_file in Hin. destruct (Z.ltb_spec 0 (rem0 - r_size r + S)); simpl in Hin; [lia|done].
  - intros Hlt. apply pick_file_mono. unfold st, pick_file.
    destruct (Z.ltb_spec 0 (rem0 - r_size r + S)); simpl; [set_solver|lia].
Qed.

Lemma mapM_perm {A B} (f : A → option B) l l' k :
  l ≡ₚ l' → mapM f l = Some k → ∃ k', mapM f l' = Some k' ∧ k ≡ₚ k'.
Proof.
  intros Hp. revert k. induction Hp as [|x l l' _ IH|x y l|l1 l2 l3 _ IH1 _ IH2]; intros k E.
  - simpl in E. injection E as <-. by exists [].
  - simpl in *. destruct (f x) as [b|]; simpl in *; [|done].
    destruct (mapM f l) as [k0|]; simpl in *; [|done]. injection E as <-.
    destruct (IH k0 eq_refl) as (k' & -> & Hk). simpl. exists (b :: k'). by rewrite Hk.
  - simpl in *. destruct (f y) as [b|]; simpl in *; [|done]. destruct (f x) as [c|]; simpl in *; [|done].
    destruct (mapM f l) as [k0|]; simpl in *; [|done]. injection E as <-. exists (c :: b :: k0).
    split; [done|]. apply Permutation_swap.
  - destruct (IH1 k E) as (k2 & E2 & P2). destruct (IH2 k2 E2) as (k3 & E3 & P3). exists k3. split; [done|]. by rewrite P2.
Qed.
Lemma mapM_perm_none {A B} (f : A → option B) l l' : l ≡ₚ l' → mapM f l = None → mapM f l' = None.
Proof.
  intros Hp E. destruct (mapM f l') as [k|] eqn:E'; [|done].
  symmetry in Hp. destruct (mapM_perm f l' l k Hp E') as (k' & E2 & _). congruence.
Qed.
Lemma mapM_elem {A B} (f : A → option B) l k : mapM f l = Some k → ∀ y, y ∈ k ↔ ∃ x, x ∈ l ∧ f x = Some y.
Proof.
  intros E. apply mapM_Some in E. induction E as [|x y l k Hx _ IH]; intros z.
  - rewrite elem_of_nil. split; [done|]. by intros (? & ?%elem_of_nil & _).
  - rewrite elem_of_cons, IH. setoid_rewrite elem_of_cons. naive_solver.
Qed.
Lemma mapM_fmap {A B C} (f : A → option B) (g : B → C) (h : A → C) l k :
  (∀ x y, f x = Some y → g y = h x) → mapM f l = Some k → map g k = map h l.
Proof.
  intros Hf E. apply mapM_Some in E. induction E as [|x y l k Hx _ IH]; simpl; [done|].
  by rewrite (Hf _ _ Hx), IH.
Qed.

Lemma filter_perm {A} (f : A → bool) l l' : l ≡ₚ l' → List.filter f l ≡ₚ List.filter f l'.
Proof.
  induction 1 as [|x l l' _ IH|x y l|l1 l2 l3 _ IH1 _ IH2]; simpl; [done| | |by rewrite IH1].
  - destruct (f x); by rewrite IH.
  - destruct (f x), (f y); try done. apply Permutation_swap.
Qed.

Definition not_below (exclude : gset path) (pd : path * ldata) : bool :=
  negb (bool_decide (Exists (λ e, e `prefix_of` pd.1) (elements exclude))).
Lemma not_below_true exclude pd : not_below exclude pd = true ↔ ∀ e, e ∈ exclude → ¬ e `prefix_of` pd.1.
Proof.
  unfold not_below. rewrite negb_true_iff, bool_decide_eq_false, Exists_exists. split.
  - intros Hn e He Hp. apply Hn. exists e. by rewrite elem_of_elements.
  - intros Hn (e & He & Hp). apply elem_of_elements in He. by apply (Hn e).
Qed.

Lemma NoDup_map_filter {A B} (g : A → B) (f : A → bool) l : NoDup (map g l) → NoDup (map g (List.filter f l)).
Proof.
  induction l as [|x l IH]; simpl; [done|]. intros Hn. inversion_clear Hn as [|? ? Hx Hl].
  destruct (f x); simpl; [|by apply IH]. constructor; [|by apply IH].
  intros Hin. apply Hx. apply elem_of_list_fmap in Hin as (y & E & Hy). rewrite E. apply elem_of_list_fmap_1.
  apply elem_of_list_In, filter_In in Hy as [Hy _]. by apply elem_of_list_In.
Qed.

(** ** Directories *)
Section dirs.
  Context (S storage : Z) (ldb : gmap path ldata) (dsize : path → Z) (rem0 : Z).
  Definition is_dir (p : path) : Prop := ∃ d, ldb !! p = Some d ∧ ld_dir d = true.
  Definition is_file (p : path) : Prop := ∃ d, ldb !! p = Some d ∧ ld_dir d = false.
  Lemma is_dir_file p : is_dir p → is_file p → False.
  Proof. intros (d & Hd & E) (d' & Hd' & E'). congruence. Qed.
  Lemma elem_of_contained b p q :
    q ∈ contained ldb b p ↔ (∃ d, ldb !! q = Some d ∧ ld_dir d = b) ∧ p `prefix_of` q.
  Proof.
    unfold contained, sl_get. rewrite elem_of_dom. unfold is_Some. setoid_rewrite s_query_lookup. simpl.
    split.
    - intros (d & Hd & Hp & Hb). rewrite andb_true_r in Hb. apply eqb_prop in Hb. split; [|done]. eauto.
    - intros [(d & Hd & Hb) Hp]. exists d. split; [done|]. split; [done|]. rewrite andb_true_r, Hb. apply eqb_reflx.
  Qed.

  Record dinv (rs : list row) (st : dstate) : Prop := {
    di_sub : ds_dirs st ⊆ list_to_set (map r_path rs);
    di_dir : ∀ d, d ∈ ds_dirs st → is_dir d;
    di_small : ∀ d, d ∈ ds_dirs st → (dsize d <= storage)%Z;
    di_anti : ∀ d e, d ∈ ds_dirs st → e ∈ ds_dirs st → d `prefix_of` e → d = e;
    di_subs : ∀ q, q ∈ ds_sub st ↔ is_dir q ∧ ∃ d, d ∈ ds_dirs st ∧ d `prefix_of` q;
    di_files : ∀ q, q ∈ ds_files st ↔ is_file q ∧ ∃ d, d ∈ ds_dirs st ∧ d `prefix_of` q;
    di_rem : ds_rem st = (rem0 - set_sum dsize (ds_dirs st) + Z.of_nat (size (ds_files st)) * S)%Z;
    di_pos : ds_dirs st ≠ ∅ → (0 <= ds_rem st)%Z
  }.
  Lemma dinv_init : dinv [] (DState rem0 ∅ ∅ ∅).
  Proof.
    split; simpl; try set_solver.
    - rewrite set_sum_empty. transitivity (rem0 - 0 + Z.of_nat (size (∅ : gset path)) * S)%Z; [rewrite size_empty; lia|reflexivity].
  Qed.
  Lemma dinv_step rs st r :
    dinv rs st → is_dir (r_path r) → dsize (r_path r) = r_size r →
    dinv (rs ++ [r]) (pick_dir S storage ldb dsize st r).
  Proof.
    intros I Hd Hsz.
    assert (dinv (rs ++ [r]) st) as Iskip.
    { destruct I as [Isub Idir Ism Ian Isu Ifi Ire Ipo]. split; try done. rewrite map_app, list_to_set_app. set_solver. }
    unfold pick_dir. set (p := r_path r) in *. case_bool_decide as Hsub; [done|].
    destruct (Z.ltb_spec storage (r_size r)) as [|Hsm]; [done|].
    set (cf := contained ldb false p). set (cd := contained ldb true p).
    destruct (Z.leb_spec 0 (ds_rem st - r_size r + zsum dsize (elements ((cf ∪ cd) ∩ ds_dirs st))
                            + Z.of_nat (size (cf ∖ ds_files st)) * S)) as [Hn|]; [|done].
    clear Iskip. destruct I as [Isub Idir Ism Ian Isu Ifi Ire Ipo].
    assert (p ∉ ds_dirs st) as Hpn.
    { intros Hin. apply Hsub. apply Isu. split; [done|]. by exists p. }
    assert ((cf ∪ cd) ∩ ds_dirs st = ds_dirs st ∩ cd) as Ecd.
    { apply set_eq. intros q. rewrite !elem_of_intersection, elem_of_union. split.
      - intros [[Hc|Hc] Hq]; [|done]. exfalso. apply elem_of_contained in Hc as [Hc _].
        exact (is_dir_file q (Idir q Hq) Hc).
      - naive_solver. }
    assert (∀ q, q ∈ cd ↔ is_dir q ∧ p `prefix_of` q) as Hcd by (intros q; apply elem_of_contained).
    assert (∀ q, q ∈ cf ↔ is_file q ∧ p `prefix_of` q) as Hcf by (intros q; apply elem_of_contained).
    split; simpl.
    - rewrite map_app, list_to_set_app. simpl. fold p. set_solver.
    - intros d Hin. apply elem_of_union in Hin as [->%elem_of_singleton|Hin]; [done|]. apply Idir. set_solver.
    - intros d Hin. apply elem_of_union in Hin as [->%elem_of_singleton|Hin]; [lia|]. apply Ism. set_solver.
    - assert (∀ e, e ∈ ds_dirs st ∖ cd → ¬ p `prefix_of` e ∧ ¬ e `prefix_of` p) as Hx.
      { intros e He. apply elem_of_difference in He as [He Hec]. split.
        - intros Hp. apply Hec, Hcd. split; [by apply Idir|done].
        - intros Hp. apply Hsub, Isu. split; [done|]. by exists e. }
      intros d e Hdin Hein Hpre.
      apply elem_of_union in Hdin as [->%elem_of_singleton|Hdin];
        apply elem_of_union in Hein as [->%elem_of_singleton|Hein].
      + done.
      + by destruct (Hx e Hein).
      + by destruct (Hx d Hdin).
      + apply Ian; [set_solver|set_solver|done].
    - intros q. rewrite elem_of_union, Isu, Hcd. split.
      + intros [[Hq (d & Hdd & Hp)]|[Hq Hp]]; (split; [done|]).
        * destruct (decide (d ∈ cd)) as [Hdc|Hdc].
          -- exists p. split; [set_solver|]. apply Hcd in Hdc as [_ ?]. by etrans.
          -- exists d. split; [set_solver|done].
        * exists p. split; [set_solver|done].
      + intros [Hq (d & Hdd & Hp)]. apply elem_of_union in Hdd as [->%elem_of_singleton|Hdd]; [by right|].
        left. split; [done|]. exists d. split; [set_solver|done].
    - intros q. rewrite elem_of_union, Ifi, Hcf. split.
      + intros [[Hq (d & Hdd & Hp)]|[Hq Hp]]; (split; [done|]).
        * destruct (decide (d ∈ cd)) as [Hdc|Hdc].
          -- exists p. split; [set_solver|]. apply Hcd in Hdc as [_ ?]. by etrans.
          -- exists d. split; [set_solver|done].
        * exists p. split; [set_solver|done].
      + intros [Hq (d & Hdd & Hp)]. apply elem_of_union in Hdd as [->%elem_of_singleton|Hdd]; [by right|].
        left. split; [done|]. exists d. split; [set_solver|done].
    - rewrite set_sum_union by set_solver. rewrite set_sum_singleton, Hsz.
      fold (set_sum dsize ((cf ∪ cd) ∩ ds_dirs st)). rewrite Ecd.
      assert (set_sum dsize (ds_dirs st) = set_sum dsize (ds_dirs st ∩ cd) + set_sum dsize (ds_dirs st ∖ cd))%Z as Es.
      { rewrite <-set_sum_union by set_solver. f_equal. apply set_eq. intros q.
        rewrite elem_of_union, elem_of_intersection, elem_of_difference. destruct (decide (q ∈ cd)); naive_solver. }
      assert (size (ds_files st ∪ cf) = size (ds_files st) + size (cf ∖ ds_files st)) as Ef.
      { by rewrite size_union_alt. }
      rewrite Ire, Es, Ef. lia.
    - done.
  Qed.
  Lemma dinv_fold rs : (∀ r, r ∈ rs → is_dir (r_path r) ∧ dsize (r_path r) = r_size r) →
    dinv rs (foldl (pick_dir S storage ldb dsize) (DState rem0 ∅ ∅ ∅) rs).
  Proof.
    induction rs as [|r rs IH] using rev_ind; intros Hr; [apply dinv_init|].
    rewrite foldl_app. simpl. destruct (Hr r) as [H1 H2]; [set_solver|].
    apply dinv_step; [|done|done]. apply IH. intros r' Hr'. apply Hr. set_solver.
  Qed.
End dirs.

(** The directory rows. *)
Lemma sl_get_lookup m dir local p d :
  sl_get m None dir local !! p = Some d ↔
    m !! p = Some d ∧ (∀ b, dir = Some b → ld_dir d = b) ∧ (∀ b, local = Some b → ld_local d = b).
Proof.
  unfold sl_get. rewrite s_query_lookup. simpl. rewrite andb_true_iff.
  assert (∀ o b, opt_eqb o b = true ↔ ∀ b', o = Some b' → b = b') as He.
  { intros [o|] b; simpl; [rewrite eqb_true_iff; naive_solver|naive_solver]. }
  rewrite !He. split; [naive_solver|]. intros (? & ? & ?). split; [done|]. split; [apply prefix_nil|done].
Qed.
Lemma NoDup_map_fst_to_list {V} (m : gmap path V) l : l ≡ₚ map_to_list m → NoDup (map fst l).
Proof. intros Hp. rewrite Hp. apply NoDup_fst_map_to_list. Qed.

Section dirs2.
  Context (account : bool) (S storage : Z) (size : path → option Z)
    (ldb : gmap path ldata) (rdb : gmap path rdata).
  Implicit Types iter : list (path * ldata) → list (path * ldata).
  Definition dirrows := map_to_list (sl_get ldb None (Some true) None).
  Lemma drows_spec l rs :
    l ≡ₚ dirrows → mapM (mk_drow account size rdb) l = Some rs →
    NoDup (map r_path rs) ∧
    ∀ r, r ∈ rs ↔ ∃ d, ldb !! r_path r = Some d ∧ ld_dir d = true ∧
           dir_size size rdb (r_path r) = Some (r_size r) ∧ r_adj r = adj account (ld_prio d) (r_size r).
  Proof.
    intros Hp E. split.
    - assert (map r_path rs = map fst l) as ->; [|by eapply NoDup_map_fst_to_list].
      eapply mapM_fmap; [|exact E].
      + intros [p d] y. unfold mk_drow. simpl. destruct (dir_size size rdb p); [|done]. intros Ey. by injection Ey as <-.
    - intros r. rewrite (mapM_elem _ _ _ E). split.
      + intros ([p d] & Hin & Hr). rewrite Hp in Hin. unfold dirrows in Hin. apply elem_of_map_to_list, sl_get_lookup in Hin as (Hm & Hd & _).
        unfold mk_drow in Hr. simpl in Hr. destruct (dir_size size rdb p) as [z|] eqn:Ez; [|done]. injection Hr as <-. simpl.
        exists d. split; [done|]. split; [by apply Hd|]. done.
      + intros (d & Hm & Hd & Hz & Ha). exists (r_path r, d). split.
        * rewrite Hp. unfold dirrows. apply elem_of_map_to_list, sl_get_lookup. naive_solver.
        * unfold mk_drow. simpl. rewrite Hz. destruct r; simpl in *. by rewrite Ha.
  Qed.
  Definition dsz (rs : list row) (p : path) : Z :=
    default 0%Z (list_to_map (M:=gmap path Z) (map (λ r, (r_path r, r_size r)) rs) !! p).
  Lemma dsz_spec rs r : NoDup (map r_path rs) → r ∈ rs → dsz rs (r_path r) = r_size r.
  Proof.
    intros Hn Hr. unfold dsz. rewrite (elem_of_list_to_map_1 _ (r_path r) (r_size r)); [done| |].
    - rewrite <-list_fmap_compose. done.
    - apply elem_of_list_fmap. by exists r.
  Qed.
  Lemma prioritize_dirs_inv iter limit rem dirs :
    (∀ l, iter l ≡ₚ l) →
    prioritize_dirs account S storage size ldb rdb iter limit = Some (rem, dirs) →
    ∃ st rs, dinv S storage ldb (λ p, default 0%Z (dir_size size rdb p))
        (limit - Z.of_nat (stdpp.base.size (dom (sl_get ldb None (Some false) None))) * S) rs st
      ∧ rem = ds_rem st ∧ dirs = ds_dirs st ∧ (∀ d, d ∈ dirs → is_Some (dir_size size rdb d)).
  Proof.
    intros Hi E. unfold prioritize_dirs in E.
    destruct (mapM _ _) as [rs|] eqn:Em; simpl in E; [|done]. injection E as <- <-.
    destruct (drows_spec _ rs (Hi _) Em) as [Hnd Hrs].
    set (rem0 := (limit - Z.of_nat (stdpp.base.size (dom (sl_get ldb None (Some false) None))) * S)%Z).
    set (dsize := λ p, default 0%Z (dir_size size rdb p)).
    assert (∀ r, r ∈ rs → is_dir ldb (r_path r) ∧ dsize (r_path r) = r_size r ∧ is_Some (dir_size size rdb (r_path r))) as Hr.
    { intros r Hin. apply Hrs in Hin as (d & Hm & Hd & Hz & _). split; [by exists d|]. unfold dsize. rewrite Hz. done. }
    assert (∀ d, d ∈ list_to_set (C:=gset path) (map r_path (rank rs)) → is_Some (dir_size size rdb d)) as Hsome.
    { intros d Hd. apply elem_of_list_to_set, elem_of_list_fmap in Hd as (r & -> & Hin). rewrite rank_perm in Hin.
      by apply Hr in Hin as (_ & _ & ?). }
    (* the sizes used by the fold are the directory sizes, wherever they are looked up *)
    assert (∀ l, (∀ r, r ∈ l → r ∈ rs) →
       foldl (pick_dir S storage ldb (dsz rs)) (DState rem0 ∅ ∅ ∅) l
       = foldl (pick_dir S storage ldb dsize) (DState rem0 ∅ ∅ ∅) l) as Heq.
    { intros l. induction l as [|r l IH] using rev_ind; intros Hl; [done|].
      rewrite !foldl_app. cbn [foldl]. rewrite IH by (intros r' Hr'; apply Hl; set_solver).
      set (st := foldl (pick_dir S storage ldb dsize) (DState rem0 ∅ ∅ ∅) l).
      assert (dinv S storage ldb dsize rem0 l st) as I.
      { apply dinv_fold. intros r' Hr'. assert (r' ∈ rs) as Hin by (apply Hl; set_solver).
        by apply Hr in Hin as (? & ? & _). }
      unfold pick_dir. destruct (bool_decide _); [done|]. destruct (storage <? r_size r)%Z; [done|].
      rewrite (zsum_ext (dsz rs) dsize); [done|].
      intros q Hq. rewrite elem_of_elements in Hq. apply elem_of_intersection in Hq as [_ Hq].
      apply (di_sub _ _ _ _ _ _ _ I), elem_of_list_to_set, elem_of_list_fmap in Hq as (r' & -> & Hr').
      assert (r' ∈ rs) as Hin by (apply Hl; set_solver). rewrite dsz_spec by done.
      by apply Hr in Hin as (_ & -> & _). }
    exists (foldl (pick_dir S storage ldb dsize) (DState rem0 ∅ ∅ ∅) (rank rs)), (rank rs).
    assert (dinv S storage ldb dsize rem0 (rank rs) (foldl (pick_dir S storage ldb dsize) (DState rem0 ∅ ∅ ∅) (rank rs))) as I.
    { apply dinv_fold. intros r Hin. rewrite rank_perm in Hin. by apply Hr in Hin as (? & ? & _). }
    fold (dsz rs). change (λ p : list (list N), default 0%Z (list_to_map (M:=gmap path Z) (map (λ r, (r_path r, r_size r)) rs) !! p)) with (dsz rs).
    rewrite Heq by (intros r; by rewrite rank_perm).
    split; [done|]. split; [done|]. split; [done|].
    intros d Hd. apply Hsome. by apply (di_sub _ _ _ _ _ _ _ I).
  Qed.
  (** A directory is left out when it does not fit beside the directories that
      were chosen before it. *)
  Lemma pick_dir_sub dsize l : ∀ st, ds_sub st ⊆ ds_sub (foldl (pick_dir S storage ldb dsize) st l).
  Proof using Type.
    induction l as [|r l IH]; intros st; cbn [foldl]; [done|]. etrans; [|apply IH].
    unfold pick_dir. case_bool_decide; [done|]. destruct (_ <? _)%Z; [done|]. destruct (_ <=? _)%Z; [|done]. cbn [ds_sub]. apply union_subseteq_l.
  Qed.
  Lemma prioritize_dirs_turn iter limit rem dirs :
    (∀ l, iter l ≡ₚ l) →
    prioritize_dirs account S storage size ldb rdb iter limit = Some (rem, dirs) →
    ∃ L : list row,
      (∀ r, r ∈ L ↔ ∃ d, ldb !! r_path r = Some d ∧ ld_dir d = true ∧
           dir_size size rdb (r_path r) = Some (r_size r) ∧ r_adj r = adj account (ld_prio d) (r_size r))
      ∧ (∀ p d, ldb !! p = Some d → ld_dir d = true → is_Some (dir_size size rdb p))
      ∧ NoDup (map r_path L) ∧ StronglySorted (PySort.le before) L
      ∧ ∀ pre r post, L = pre ++ r :: post → (∀ d, d ∈ dirs → ¬ d `prefix_of` r_path r) →
        (storage < r_size r)%Z ∨
        ∃ D D' : gset path, (∀ d, d ∈ D → d ∈ map r_path pre ∧ ∃ e, e ∈ dirs ∧ e `prefix_of` d)
          ∧ (∀ d, d ∈ D' ↔ d = r_path r ∨ (d ∈ D ∧ ¬ r_path r `prefix_of` d))
          ∧ (∀ d e, d ∈ D' → e ∈ D' → d `prefix_of` e → d = e)
          ∧ (limit < set_sum (λ p, default 0 (dir_size size rdb p)) D'
               + Z.of_nat (stdpp.base.size (filter (λ q, Forall (λ d, ¬ d `prefix_of` q) (elements D')) (dom (sl_get ldb None (Some false) None)))) * S)%Z.
  Proof.
    intros Hi E. unfold prioritize_dirs in E.
    destruct (mapM _ _) as [rs|] eqn:Em; simpl in E; [|done]. injection E as <- <-.
    destruct (drows_spec _ rs (Hi _) Em) as [Hnd Hrs].
    set (A := dom (sl_get ldb None (Some false) None)).
    set (rem0 := (limit - Z.of_nat (stdpp.base.size A) * S)%Z).
    set (dsize := dsz rs). fold dsize. change (λ p : path, default 0%Z (list_to_map (map (λ r, (r_path r, r_size r)) rs) !! p)) with dsize.
    assert (∀ l, (∀ r, r ∈ l → r ∈ rs) → dinv S storage ldb dsize rem0 l (foldl (pick_dir S storage ldb dsize) (DState rem0 ∅ ∅ ∅) l)) as Hinv.
    { intros l Hl. apply dinv_fold. intros r Hr%Hl. split; [|by apply dsz_spec]. apply Hrs in Hr as (d & Hm & Hd & _). by exists d. }
    exists (rank rs). split; [intros r; by rewrite rank_perm|]. split.
    { intros p d Hp Hd. assert ((p, d) ∈ iter (map_to_list (sl_get ldb None (Some true) None))) as [i Hx]%elem_of_list_lookup.
      { rewrite Hi. apply elem_of_map_to_list, sl_get_lookup. naive_solver. }
      apply mapM_Some in Em. destruct (Forall2_lookup_l _ _ _ _ _ Em Hx) as (y & _ & Hy). unfold mk_drow in Hy. cbn [fst] in Hy.
      destruct (dir_size size rdb p); [by eexists|done]. }
    split; [by rewrite rank_perm|]. split; [apply rank_sorted|].
    intros pre r post EL Hun.
    assert (∀ x, x ∈ pre ++ r :: post → x ∈ rs) as Hin by (intros x; by rewrite <-EL, rank_perm).
    pose proof (Hinv _ Hin) as If. rewrite EL in Hun |- *.
    pose proof (Hinv pre ltac:(intros x Hx; apply Hin; set_solver)) as I.
    assert (r ∈ rs) as Hr by (apply Hin; set_solver). pose proof (dsz_spec _ _ Hnd Hr) as Hsz. apply Hrs in Hr as (dr & Hdr & Hdd & Hzr & _).
    assert (is_dir ldb (r_path r)) as Hdir by (by exists dr).
    pose proof (pick_dir_sub dsize (r :: post) (foldl (pick_dir S storage ldb dsize) (DState rem0 ∅ ∅ ∅) pre)) as Hsub.
    pose proof (pick_dir_sub dsize post (pick_dir S storage ldb dsize (foldl (pick_dir S storage ldb dsize) (DState rem0 ∅ ∅ ∅) pre) r)) as Hsub1.
    rewrite foldl_app in If, Hun. rewrite foldl_app.
    set (st := foldl (pick_dir S storage ldb dsize) (DState rem0 ∅ ∅ ∅) pre) in *. cbn [foldl] in *.
    set (st2 := foldl (pick_dir S storage ldb dsize) (pick_dir S storage ldb dsize st r) post) in *.
    assert (∀ q, q ∈ ds_sub st2 → ∃ e, e ∈ ds_dirs st2 ∧ e `prefix_of` q) as Hfin by (intros q Hq; by apply (di_subs _ _ _ _ _ _ _ If) in Hq as [_ ?]).
    assert (r_path r ∉ ds_sub st2) as Hnr. { intros (e & He & Hp)%Hfin. by apply (Hun e). }
    set (cf := contained ldb false (r_path r)). set (cd := contained ldb true (r_path r)).
    assert (∀ q, q ∈ cd ↔ is_dir ldb q ∧ r_path r `prefix_of` q) as Hcd by (intros q; apply elem_of_contained).
    assert (∀ q, q ∈ cf ↔ is_file ldb q ∧ r_path r `prefix_of` q) as Hcf by (intros q; apply elem_of_contained).
    unfold pick_dir in Hsub1. rewrite bool_decide_false in Hsub1 by (intros ?; by apply Hnr, Hsub).
    destruct (Z.ltb_spec storage (r_size r)) as [|Hsm]; [by left|]. right. fold cf cd in Hsub1.
    destruct (Z.leb_spec 0 (ds_rem st - r_size r + zsum dsize (elements ((cf ∪ cd) ∩ ds_dirs st))
                            + Z.of_nat (stdpp.base.size (cf ∖ ds_files st)) * S)) as [Hn|Hn].
    { exfalso. apply Hnr, Hsub1. cbn [ds_sub]. apply elem_of_union. right. apply Hcd. done. }
    clear Hsub1. destruct I as [Isub Idir Ism Ian Isu Ifi Ire Ipo].
    assert (∀ d, d ∈ ds_dirs st → ¬ d `prefix_of` r_path r) as Hnab.
    { intros d Hd Hp. apply Hnr, Hsub, Isu. split; [done|]. by exists d. }
    exists (ds_dirs st), ({[r_path r]} ∪ (ds_dirs st ∖ cd)).
    assert (∀ d, d ∈ {[r_path r]} ∪ (ds_dirs st ∖ cd) ↔ d = r_path r ∨ (d ∈ ds_dirs st ∧ ¬ r_path r `prefix_of` d)) as HD'.
    { intros d. rewrite elem_of_union, elem_of_singleton, elem_of_difference, Hcd. split; (intros [?|[Hd Hn']]; [by left|right]; split; [done|]).
      - intros Hp. apply Hn'. split; [by apply Idir|done].
      - by intros [_ ?]. }
    split; [|split; [done|split]].
    - intros d Hd. split; [by apply Isub, elem_of_list_to_set in Hd|]. apply Hfin, Hsub, Isu. split; [by apply Idir|by exists d].
    - intros d e [->|[Hd Hdn]]%HD' [->|[He Hen]]%HD' Hp; [done|done|by destruct (Hnab d Hd)|by apply Ian].
    - assert ((cf ∪ cd) ∩ ds_dirs st = ds_dirs st ∩ cd) as Ecd.
      { apply set_eq. intros q. rewrite !elem_of_intersection, elem_of_union. split.
        - intros [[Hc|Hc] Hq]; [|done]. exfalso. apply elem_of_contained in Hc as [Hc _].
          exact (is_dir_file ldb q (Idir q Hq) Hc).
        - naive_solver. }
      change (zsum dsize (elements ((cf ∪ cd) ∩ ds_dirs st))) with (set_sum dsize ((cf ∪ cd) ∩ ds_dirs st)) in Hn. rewrite Ecd in Hn.
      assert (set_sum (λ p, default 0%Z (dir_size size rdb p)) ({[r_path r]} ∪ (ds_dirs st ∖ cd)) = set_sum dsize ({[r_path r]} ∪ (ds_dirs st ∖ cd))) as ->.
      { apply set_sum_ext. intros d [->|[Hd _]]%HD'; [by rewrite Hzr|]. apply Isub, elem_of_list_to_set, elem_of_list_fmap in Hd as (x & -> & Hx).
        assert (x ∈ rs) as Hx' by (apply Hin; set_solver). unfold dsize. rewrite (dsz_spec _ _ Hnd Hx'). by apply Hrs in Hx' as (? & _ & _ & -> & _). }
      rewrite set_sum_union, set_sum_singleton.
      2:{ intros d [= ->]%elem_of_singleton [Hd Hnd']%elem_of_difference. by apply (Hnab (r_path r)). }
      assert (set_sum dsize (ds_dirs st) = set_sum dsize (ds_dirs st ∩ cd) + set_sum dsize (ds_dirs st ∖ cd))%Z as Esum.
      { rewrite <-set_sum_union by set_solver. f_equal. apply set_eq. intros q. destruct (decide (q ∈ cd)); set_solver. }
      assert (∀ q, q ∈ A ↔ is_file ldb q) as HA.
      { intros q. unfold A. rewrite elem_of_dom. unfold is_Some, is_file. setoid_rewrite sl_get_lookup. naive_solver. }
      set (G := filter _ A).
      assert (A = G ∪ (ds_files st ∪ (cf ∖ ds_files st))) as EA.
      { apply set_eq. intros q. unfold G. rewrite !elem_of_union, elem_of_filter, elem_of_difference, HA, Forall_forall. split.
        - intros Hq. destruct (decide (q ∈ ds_files st)) as [|Hnf]; [by right; left|]. destruct (decide (q ∈ cf)) as [|Hnc]; [by right; right|].
          left. split; [|done]. intros d [->|[Hd _]]%elem_of_elements%HD' Hp; [by apply Hnc, Hcf|]. apply Hnf, Ifi. split; [done|by exists d].
        - intros [[_ ?]|[?|[? _]]]; [done|by apply Ifi|by apply Hcf]. }
      assert (stdpp.base.size A = stdpp.base.size G + (stdpp.base.size (ds_files st) + stdpp.base.size (cf ∖ ds_files st))) as Esz.
      { rewrite EA at 1. rewrite size_union, size_union; [done|set_solver|]. intros q Hq Hq'. unfold G in Hq. apply elem_of_filter in Hq as [Hq _]. rewrite Forall_forall in Hq.
        apply elem_of_union in Hq' as [Hq'|[Hq' _]%elem_of_difference].
        - apply Ifi in Hq' as (_ & d & Hd & Hp). destruct (decide (r_path r `prefix_of` d)) as [Hrd|Hrd].
          + apply (Hq (r_path r)); [apply elem_of_elements, HD'; by left|by etrans].
          + apply (Hq d); [apply elem_of_elements, HD'; by right|done].
        - apply Hcf in Hq' as [_ Hp]. apply (Hq (r_path r)); [apply elem_of_elements, HD'; by left|done]. }
      fold dsize in Hsz. rewrite Hsz. unfold rem0 in Ire. rewrite Esz in Ire. lia.
  Qed.
  Lemma prioritize_dirs_perm iter iter' limit :
    (∀ l, iter l ≡ₚ l) → (∀ l, iter' l ≡ₚ l) → (∀ p, p ∈ dom ldb → valid_comps p) →
    prioritize_dirs account S storage size ldb rdb iter limit = prioritize_dirs account S storage size ldb rdb iter' limit.
  Proof.
    intros Hi Hi' Hv. unfold prioritize_dirs.
    assert (iter dirrows ≡ₚ iter' dirrows) as Hp by by rewrite Hi, Hi'.
    fold dirrows. destruct (mapM _ (iter dirrows)) as [rs|] eqn:E.
    2:{ by rewrite (mapM_perm_none _ _ _ Hp E). }
    destruct (mapM_perm _ _ _ _ Hp E) as (rs' & -> & Hrs). simpl.
    destruct (drows_spec _ rs (Hi _) E) as [Hnd Hel].
    rewrite (rank_unique rs rs'); [|intros r Hr; apply Hel in Hr as (d & Hd & _); apply Hv, elem_of_dom; eauto|done|done].
    assert (list_to_map (M:=gmap path Z) (map (λ r, (r_path r, r_size r)) rs)
            = list_to_map (map (λ r, (r_path r, r_size r)) rs')) as ->; [|done].
    apply list_to_map_proper; [|by apply Permutation_map].
    rewrite <-list_fmap_compose. done.
  Qed.
End dirs2.
