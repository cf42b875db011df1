(** Consequences of the way in which files are selected (C29-C32). *)
From Coq Require Import QArith Qcanon.
From Verif Require Export PriorityProofs.
From Verif Require Import Prop_Priority DBInv.
From stdpp Require Import options.

Lemma zsum_nonneg {A} (f : A → Z) l : (∀ x, x ∈ l → 0 <= f x)%Z → (0 <= zsum f l)%Z.
Proof.
  induction l as [|x l IH]; intros Hf; cbn; [lia|]. specialize (IH ltac:(intros y Hy; apply Hf; by right)). specialize (Hf x ltac:(by left)). unfold zsum in IH. lia.
Qed.
Lemma zsum_le {A} (f g : A → Z) l : (∀ x, x ∈ l → f x <= g x)%Z → (zsum f l <= zsum g l)%Z.
Proof.
  induction l as [|x l IH]; intros Hf; cbn; [lia|]. specialize (IH ltac:(intros y Hy; apply Hf; by right)). specialize (Hf x ltac:(by left)). unfold zsum in IH. lia.
Qed.
Lemma set_sum_le (f g : path → Z) (A : gset path) : (∀ x, x ∈ A → f x <= g x)%Z → (set_sum f A <= set_sum g A)%Z.
Proof. intros Hf. apply zsum_le. intros x Hx%elem_of_elements. by apply Hf. Qed.

(** Disjoint trees. *)
Lemma set_sum_trees (f : path → Z) (K D : gset path) :
  (∀ d e, d ∈ D → e ∈ D → d `prefix_of` e → d = e) →
  set_sum f K = (set_sum (λ d, set_sum f (filter (λ q, d `prefix_of` q) K)) D
     + set_sum f (filter (λ q, Forall (λ d, ¬ d `prefix_of` q) (elements D)) K))%Z.
Proof.
  induction D as [|d D Hd IH] using set_ind_L; intros Han.
  - rewrite set_sum_empty. rewrite Z.add_0_l. f_equal. apply set_eq. intros q. rewrite elem_of_filter, elements_empty. split; [by split; [constructor|]|by intros [_ ?]].
  - rewrite set_sum_union, set_sum_singleton by set_solver. rewrite IH by (intros x y Hx Hy; apply Han; set_solver).
    assert (filter (λ q, Forall (λ d, ¬ d `prefix_of` q) (elements D)) K
      = filter (λ q, d `prefix_of` q) K ∪ filter (λ q, Forall (λ d, ¬ d `prefix_of` q) (elements ({[d]} ∪ D))) K) as ->.
    { apply set_eq. intros q. rewrite elem_of_union, !elem_of_filter, !Forall_forall. split.
      - intros [Hn Hq]. destruct (decide (d `prefix_of` q)) as [Hp|Hp]; [by left|right]. split; [|done].
        intros e [->%elem_of_singleton|He]%elem_of_elements%elem_of_union; [done|]. by apply Hn, elem_of_elements.
      - intros [[Hp Hq]|[Hn Hq]]; (split; [|done]).
        + intros e He%elem_of_elements He'. destruct (prefix_weak_total d e q Hp He') as [Hde|Hde].
          * apply Hd. rewrite (Han d e); set_solver.
          * apply Hd. rewrite <-(Han e d); set_solver.
        + intros e He%elem_of_elements. apply Hn, elem_of_elements. set_solver. }
    rewrite set_sum_union; [lia|]. intros q [Hp _]%elem_of_filter [Hn _]%elem_of_filter. rewrite Forall_forall in Hn. apply (Hn d); [apply elem_of_elements; set_solver|done].
Qed.

Section select.
  Context (account : bool) (S storage excl : Z) (sized sizef : path → option Z) (ldb : gmap path ldata) (rdb : gmap path rdata).
  Context (iter : list (path * ldata) → list (path * ldata)) (Hi : ∀ l, iter l ≡ₚ l) (rem : Z) (dirs files : gset path).
  Context (Hsel : select account S storage excl sized sizef ldb rdb iter = Some (rem, dirs, files)).
  Local Notation f := (λ p, default 0%Z (sized p)).
  Context (Hsz : ∀ p x, ldb !! p = Some x → ld_dir x = false → sizef p = sized p).

  Lemma select_inv : ∃ (limit : Z) (L : list row),
    let U := filter (λ p, Forall (λ d, ¬ d `prefix_of` p) (elements dirs)) (dom (filter (λ kv, ld_dir kv.2 = false) ldb)) in
    limit = (storage - excl - set_sum (usage sized rdb) dirs - Z.of_nat (size U) * S)%Z ∧
    map r_path L ≡ₚ elements U ∧
    (∀ r, r ∈ L → f (r_path r) = r_size r ∧ ∃ d, ldb !! r_path r = Some d ∧ r_adj r = adj account (ld_prio d) (r_size r)) ∧
    (∀ i j a b, L !! i = Some a → L !! j = Some b → i < j → (r_adj b <= r_adj a)%Qc) ∧
    (∀ p, p ∈ files → p ∈ U) ∧
    (∀ pre r post, L = pre ++ r :: post →
         (r_path r ∉ files ↔
          (limit - zsum (λ x, if bool_decide (r_path x ∈ files) then r_size x - S else 0) pre <= r_size r - S)%Z)).
  Proof using All.
    unfold select in Hsel.
    destruct (prioritize_dirs _ _ _ _ _ _ _ _) as [[rem1 dirs1]|] eqn:Ed; simpl in Hsel; [|done].
    destruct (prioritize_files _ _ _ _ _ _) as [[rem2 files2]|] eqn:Ef; simpl in Hsel; [|done].
    injection Hsel as -> -> ->.
    destruct (prioritize_dirs_inv _ _ _ _ _ _ _ _ _ _ Hi Ed) as (st & rs & I & Er & Edi & Hsome).
    set (rows := iter (map_to_list (sl_get ldb None (Some false) None))) in *.
    assert (Hfile : ∀ p d, (p, d) ∈ rows ↔ ldb !! p = Some d ∧ ld_dir d = false).
    { intros p d. apply file_rows_elem. apply Hi. }
    destruct (C31_priority_order _ _ _ _ _ _ _ _ (NoDup_map_fst_to_list _ _ (Hi _)) Ef) as (L & HL & Hnd & Hso & Hsub & Ht).
    exists rem1, L. intros U.
    assert (HU : ∀ p, p ∈ U ↔ (∃ x, ldb !! p = Some x ∧ ld_dir x = false) ∧ ∀ d, d ∈ dirs → ¬ d `prefix_of` p).
    { intros p. unfold U. rewrite elem_of_filter, elem_of_dom, Forall_forall. unfold is_Some. setoid_rewrite map_filter_lookup_Some. setoid_rewrite elem_of_elements. naive_solver. }
    assert (HLU : ∀ p, p ∈ map r_path L ↔ p ∈ U).
    { intros p. rewrite HU, elem_of_list_fmap. split.
      - intros (r & -> & (d & Hd & Hn & _)%HL). apply Hfile in Hd. split; [by exists d|done].
      - intros [(x & Hx & Hdx) Hn]. 
        assert (∃ z, sizef p = Some z) as [z Hz].
        { destruct (prioritize_files_inv _ _ _ _ _ _ _ _ (NoDup_map_fst_to_list _ _ (Hi _)) Ef) as (rs' & Em & _).
          assert ((p, x) ∈ List.filter (not_below dirs) rows) as [i Hx']%elem_of_list_lookup.
          { apply elem_of_list_In, filter_In. split; [by apply elem_of_list_In, Hfile|]. by apply not_below_true. }
          apply mapM_Some in Em. destruct (Forall2_lookup_l _ _ _ _ _ Em Hx') as (y & _ & Hy). unfold mk_row in Hy. cbn [fst] in Hy.
          destruct (sizef p); [by eexists|done]. }
        eexists (Row p _ z). split; [done|]. apply HL. exists x. cbn [r_path r_size r_adj]. split; [by apply Hfile|]. split; [done|]. split; [done|]. reflexivity. }
    split; [|split; [|split; [|split; [|split]]]].
    - rewrite Er, (di_rem _ _ _ _ _ _ _ I), <-Edi.
      assert (set_sum (usage sized rdb) dirs = set_sum (λ p, default 0%Z (dir_size sized rdb p)) dirs) as ->.
      { apply set_sum_ext. intros d Hd. destruct (Hsome d Hd) as [z Hz]. rewrite Hz. simpl. symmetry. by apply dir_size_usage. }
      assert (size (dom (sl_get ldb None (Some false) None)) = size U + size (ds_files st)) as Esz; [|lia].
      rewrite <-size_union.
      + f_equal. apply set_eq. intros q. rewrite elem_of_union, HU, (di_files _ _ _ _ _ _ _ I), <-Edi, elem_of_dom. unfold is_Some. setoid_rewrite sl_get_lookup. split.
        * intros (x & Hx & Hd & _). specialize (Hd false eq_refl). destruct (decide (Exists (λ d, d `prefix_of` q) (elements dirs))) as [He|He].
          -- right. apply Exists_exists in He as (d & Hd'%elem_of_elements & Hp). split; [by exists x|by exists d].
          -- left. split; [by exists x|]. intros d Hd' Hp. apply He, Exists_exists. exists d. by rewrite elem_of_elements.
        * intros [[(x & Hx & Hd) _]|[(x & Hx & Hd) _]]; exists x; naive_solver.
      + intros q [_ Hn]%HU Hq%(di_files _ _ _ _ _ _ _ I). destruct Hq as (_ & d & Hd & Hp). rewrite <-Edi in Hd. by apply (Hn d).
    - apply NoDup_Permutation; [done|apply NoDup_elements|]. intros q. by rewrite elem_of_elements, HLU.
    - intros r Hr. apply HL in Hr as (d & Hd & _ & Hz & Ha). apply Hfile in Hd as [Hd Hdir]. split; [cbn; by rewrite <-(Hsz _ _ Hd Hdir), Hz|].
      exists d. split; [done|]. rewrite Ha. unfold adj. destruct account; [|done]. destruct (Z.eqb_spec (r_size r) 0), (decide (r_size r = 0%Z)); done.
    - intros i j a b Ha Hb Hij. destruct (Hso i j a b Ha Hb Hij) as [Hlt|[-> _]]; [by apply Qclt_le_weak|apply Qcle_refl].
    - intros p Hp%Hsub. by apply HLU.
    - done.
  Qed.

  (** If all known paths fit in the limit, then all are kept. *)
  Lemma select_room : (∀ p, 0 <= f p)%Z → dom rdb = dom ldb →
    (excl + set_sum (λ p, Z.max (f p) S) (dom ldb) < storage)%Z →
    ∀ p x, ldb !! p = Some x → ld_dir x = false → p ∈ files ∨ ∃ d, d ∈ dirs ∧ d `prefix_of` p.
  Proof using All.
    intros Hf Hdom Hlt p x Hx Hd. destruct select_inv as (limit & L & El & HL & Hr & _ & _ & Ht).
    set (U := filter (λ p, Forall (λ d, ¬ d `prefix_of` p) (elements dirs)) (dom (filter (λ kv : path * ldata, ld_dir kv.2 = false) ldb))) in *.
    destruct (decide (p ∈ files)) as [|Hnf]; [by left|]. right.
    destruct (decide (Exists (λ d, d `prefix_of` p) (elements dirs))) as [He|He].
    { apply Exists_exists in He as (d & Hd'%elem_of_elements & Hp). eauto. }
    exfalso.
    assert (p ∈ map r_path L) as Hp.
    { rewrite HL. apply elem_of_elements. unfold U. rewrite elem_of_filter, elem_of_dom. split; [by apply Forall_Exists_neg|]. exists x. by apply map_filter_lookup_Some. }
    apply elem_of_list_fmap in Hp as (r & -> & (pre & post & EL)%elem_of_list_split).
    apply (Ht pre r post EL) in Hnf. subst limit.
    assert (zsum (λ x, if bool_decide (r_path x ∈ files) then r_size x - S else 0)%Z pre + (r_size r - S)
      <= zsum (λ x, Z.max (f (r_path x)) S - S)%Z L)%Z as H1.
    { assert (∀ x, x ∈ L → f (r_path x) = r_size x) as HfL by (intros x0 Hx0; by apply Hr). clear -EL HfL.
      rewrite EL in *. rewrite zsum_app. change (zsum ?g (r :: post)) with (g r + zsum g post)%Z.
      assert (zsum (λ x, if bool_decide (r_path x ∈ files) then r_size x - S else 0)%Z pre <= zsum (λ x, Z.max (f (r_path x)) S - S)%Z pre)%Z.
      { apply zsum_le. intros y Hy. rewrite HfL by set_solver. case_bool_decide; lia. }
      assert (0 <= zsum (λ x, Z.max (f (r_path x)) S - S)%Z post)%Z by (apply zsum_nonneg; intros y Hy; lia).
      assert (f (r_path r) = r_size r) as E by (apply HfL; set_solver). cbn beta in *. lia. }
    assert (zsum (λ x, Z.max (f (r_path x)) S - S)%Z L = set_sum (λ p, Z.max (f p) S) U - Z.of_nat (size U) * S)%Z as H2.
    { transitivity (zsum (λ p, Z.max (f p) S - S)%Z (map r_path L)); [by rewrite zsum_map|]. rewrite (zsum_perm _ _ _ HL).
      assert (Hg : ∀ (g : path → Z) l, (zsum (λ p, g p - S) l = zsum g l - Z.of_nat (length l) * S)%Z); [|apply (Hg (λ p, Z.max (f p) S))].
      intros g l. induction l as [|y l IH]; [done|]. cbn [length]. change ((g y - S) + zsum (λ p, g p - S) l = g y + zsum g l - Z.of_nat (Datatypes.S (length l)) * S)%Z. rewrite IH. lia. }
    assert (set_sum (usage sized rdb) dirs + set_sum (λ p, Z.max (f p) S) U <= set_sum (λ p, Z.max (f p) S) (dom ldb))%Z as H3. 2:{ cbn beta in *. lia. }
    destruct (C32_directories_whole _ _ _ _ _ _ _ _ _ _ _ _ Hi Hsel) as (Han & _ & _).
    rewrite (set_sum_trees (λ p, Z.max (f p) S) (dom ldb) dirs).
    2:{ intros d e Hd' He' Hp. destruct (decide (d = e)) as [|Hne]; [done|]. destruct (Han d e Hd' He'). by apply below_prefix. }
    assert (set_sum (usage sized rdb) dirs <= set_sum (λ d, set_sum (λ p, Z.max (f p) S) (filter (λ q, d `prefix_of` q) (dom ldb))) dirs)%Z.
    { apply set_sum_le. intros d _. unfold usage. rewrite Hdom. apply set_sum_le. intros q _. lia. }
    assert (set_sum (λ p, Z.max (f p) S) U <= set_sum (λ p, Z.max (f p) S) (filter (λ q, Forall (λ d, ¬ d `prefix_of` q) (elements dirs)) (dom ldb)))%Z; [|cbn beta in *; lia].
    assert (U ⊆ filter (λ q, Forall (λ d, ¬ d `prefix_of` q) (elements dirs)) (dom ldb)) as Hsub.
    { intros q [Hq Hq']%elem_of_filter. apply elem_of_filter. split; [done|]. apply elem_of_dom in Hq' as [y [Hy _]%map_filter_lookup_Some]. apply elem_of_dom. by eexists. }
    rewrite (union_difference_L _ _ Hsub), set_sum_union by set_solver.
    enough (0 <= set_sum (λ p, Z.max (f p) S) (filter (λ q, Forall (λ d, ¬ d `prefix_of` q) (elements dirs)) (dom ldb) ∖ U))%Z by lia.
    apply zsum_nonneg. intros q _. specialize (Hf q). cbn beta in Hf. lia.
  Qed.

  (** A file that is selected by itself is smaller than any file of higher
      priority that is left out. *)
  Lemma select_rank : (∀ p x, ldb !! p = Some x → ld_dir x = false → S <= f p)%Z →
    ∀ p q x y, ldb !! p = Some x → ld_dir x = false → p ∉ files → (∀ d, d ∈ dirs → ¬ d `prefix_of` p) →
    ldb !! q = Some y → q ∈ files → (adj account (ld_prio y) (f q) < adj account (ld_prio x) (f p))%Qc → (f q < f p)%Z.
  Proof using All.
    intros HS p q x y Hx Hdx Hpn Hpd Hy Hq Hlt. destruct select_inv as (limit & L & El & HL & Hr & Hso & Hfi & Ht).
    set (U := filter (λ p, Forall (λ d, ¬ d `prefix_of` p) (elements dirs)) (dom (filter (λ kv : path * ldata, ld_dir kv.2 = false) ldb))) in *.
    assert (p ∈ map r_path L) as Hp.
    { rewrite HL. apply elem_of_elements. unfold U. rewrite elem_of_filter, elem_of_dom. split.
      - apply Forall_forall. intros d Hd%elem_of_elements. by apply Hpd.
      - exists x. by apply map_filter_lookup_Some. }
    assert (q ∈ map r_path L) as Hq' by (rewrite HL; by apply elem_of_elements, Hfi).
    apply elem_of_list_fmap in Hp as (a & -> & (i & Ha)%elem_of_list_lookup). apply elem_of_list_fmap in Hq' as (b & -> & (j & Hb)%elem_of_list_lookup).
    destruct (Hr a) as (Ea & x' & Hx' & Aa); [by eapply elem_of_list_lookup_2|]. destruct (Hr b) as (Eb & y' & Hy' & Ab); [by eapply elem_of_list_lookup_2|].
    cbn beta in *. rewrite Hx in Hx'. injection Hx' as <-. rewrite Hy in Hy'. injection Hy' as <-. rewrite Ea, Eb in *. rewrite <-Aa, <-Ab in Hlt.
    assert (i < j) as Hij.
    { destruct (decide (i < j)); [done|]. destruct (decide (i = j)) as [->|Hne].
      - rewrite Ha in Hb. injection Hb as ->. by apply Qclt_not_eq in Hlt.
      - pose proof (Hso j i b a Hb Ha ltac:(lia)) as Hle. by apply Qcle_not_lt in Hle. }
    pose proof (take_drop_middle L i a Ha) as E1. pose proof (take_drop_middle L j b Hb) as E2.
    pose proof (proj1 (Ht _ _ _ (eq_sym E1)) Hpn) as T1.
    assert (¬ (limit - zsum (λ x, if bool_decide (r_path x ∈ files) then r_size x - S else 0)%Z (take j L) <= r_size b - S)%Z) as T2.
    { intros T2%(Ht _ _ _ (eq_sym E2)). done. }
    assert (zsum (λ x, if bool_decide (r_path x ∈ files) then r_size x - S else 0)%Z (take i L) <= zsum (λ x, if bool_decide (r_path x ∈ files) then r_size x - S else 0)%Z (take j L))%Z; [|lia].
    rewrite <-(take_drop i (take j L)), take_take, Nat.min_l, zsum_app by lia.
    enough (0 <= zsum (λ x, if bool_decide (r_path x ∈ files) then r_size x - S else 0)%Z (drop i (take j L)))%Z by lia.
    apply zsum_nonneg. intros r Hr'. assert (r ∈ L) as HrL.
    { rewrite <-(take_drop j L). apply elem_of_app. left. rewrite <-(take_drop i (take j L)). apply elem_of_app. by right. }
    case_bool_decide as Hin; [|lia]. destruct (Hr r HrL) as (Er & d & Hd & _). apply Hfi, elem_of_filter in Hin as [_ [d' [Hd' Hdir]%map_filter_lookup_Some]%elem_of_dom].
    rewrite Hd in Hd'. injection Hd' as <-. specialize (HS _ _ Hd Hdir). cbn beta in *. lia.
  Qed.
End select.
