(** What every history keeps true of the directory rows. *)
From Coq Require Import QArith Qcanon.
From Verif Require Export DBProofs.
From stdpp Require Import options.

Definition tree_ok {D} (m : gmap path D) : Prop :=
  ∀ p, p ∈ dom m → p ≠ [] ∧ (parent p ≠ [] → parent p ∈ dom m).

Section inv.
  Context {D : Type} (F : list D → D → Prop).
  Implicit Types (m : gmap path D) (p q c : path) (ps paths : list path).

  Definition inv_at m p : Prop := ∀ d, m !! p = Some d → s_children m p ≠ [] → F (s_children m p) d.
  Definition inv m : Prop := ∀ p, inv_at m p.

  Lemma inv_at_ext m m' p :
    m !! p = m' !! p → (∀ c, child_of c p → m !! c = m' !! c) → inv_at m p → inv_at m' p.
  Proof. intros Ep Ec Hi d Hd Hc. rewrite <-(s_children_ext m m' p Ec) in *. apply Hi; [by rewrite Ep|done]. Qed.
  Lemma inv_empty : inv ∅.
  Proof. intros p d. by rewrite lookup_empty. Qed.
  Lemma recompute_inv m g ps :
    (∀ cs d, cs ≠ [] → F cs (g cs d)) → m !! [] = None →
    (∀ p, p ≠ [] → p ∉ ancestry ps → inv_at m p) → inv (s_recompute m g ps).
  Proof.
    intros Hg Hnil Hb p.
    destruct (decide (p = [])) as [->|Hp].
    { intros d Hd. rewrite s_recompute_spec in Hd. rewrite Hnil in Hd. simpl in Hd. by case_bool_decide. }
    destruct (decide (p ∈ ancestry ps)) as [Ha|Ha].
    - intros d Hd Hc. rewrite s_recompute_spec, bool_decide_true in Hd by done.
      apply fmap_Some in Hd as (d0 & _ & ->). by apply Hg.
    - apply (inv_at_ext m); [| |by apply Hb].
      + by rewrite s_recompute_spec, bool_decide_false.
      + intros c Hc. rewrite s_recompute_spec, bool_decide_false; [done|].
        intros Hca. apply Ha. apply elem_of_ancestry in Hca as (_ & q & Hq & Hpre).
        apply elem_of_ancestry. split; [done|]. exists q. split; [done|].
        etrans; [by apply child_prefix|done].
  Qed.
  Lemma s_upd_other m f ps p : p ∉ ps → s_upd m f ps !! p = m !! p.
  Proof.
    unfold s_upd. revert m. induction ps as [|q ps IH]; intros m Hp; [done|]. cbn [foldl].
    rewrite not_elem_of_cons in Hp. destruct Hp as [Hpq Hp]. rewrite IH by done. by apply lookup_alter_ne.
  Qed.
  Lemma child_anc c p ps : p ≠ [] → child_of c p → c ∈ ps → p ∈ ancestry (parents ps).
  Proof.
    intros Hp Hc Hin. apply elem_of_ancestry. split; [done|]. exists p. split; [|done].
    apply elem_of_parents. split; [done|]. exists c. split; [done|]. by apply child_parent in Hc as [_ <-].
  Qed.
  Lemma below_anc q p ps : p ≠ [] → below q p → q ∈ ps → p ∈ ancestry (parents ps).
  Proof.
    intros Hp (x & l & ->) Hin. apply elem_of_ancestry. split; [done|].
    destruct l as [|y l _] using rev_ind.
    - exists p. split; [|done]. apply elem_of_parents. split; [done|]. eexists. split; [done|]. by rewrite parent_snoc.
    - exists (p ++ x :: l). split; [|by eexists]. apply elem_of_parents. split; [by destruct p|].
      eexists. split; [done|]. rewrite app_comm_cons, app_assoc. by rewrite parent_snoc.
  Qed.
  Lemma anc_child c p ps : p ≠ [] → child_of c p → c ∈ ancestry ps → p ∈ ancestry ps.
  Proof.
    intros Hp Hc Hca. apply elem_of_ancestry in Hca as (_ & q & Hq & Hpre).
    apply elem_of_ancestry. split; [done|]. exists q. split; [done|]. etrans; [by apply child_prefix|done].
  Qed.
  Lemma parents_anc c ps : c ∈ ps → c ≠ [] → c ∈ ancestry ps.
  Proof. intros Hc Hn. apply elem_of_ancestry. split; [done|]. by exists c. Qed.

  Lemma s_children_dom m m' p : dom m = dom m' → s_children m p = [] → s_children m' p = [].
  Proof.
    intros Hd. rewrite !s_children_nil. intros Hn q Hq. apply not_elem_of_dom. rewrite <-Hd.
    by apply not_elem_of_dom, Hn.
  Qed.

  Lemma base_add m mk sd paths p :
    tree_ok m → inv m → p ≠ [] → p ∉ ancestry (parents paths) → inv_at (s_add m mk sd paths) p.
  Proof.
    intros Ht Hi Hp Ha.
    assert (∀ q, q ∉ parents paths → s_add m mk sd paths !! q = s_insert m mk paths !! q) as Hsd.
    { intros q Hq. by apply s_upd_other. }
    assert (∀ c, child_of c p → m !! c = s_add m mk sd paths !! c) as Hc.
    { intros c Hc. rewrite Hsd, s_insert_lookup.
      - destruct (m !! c) eqn:E; [done|]. rewrite bool_decide_false; [done|].
        intros Hin. apply Ha. by eapply child_anc.
      - intros Hin. apply Ha. eapply anc_child; [done|done|]. apply parents_anc; [done|].
        apply elem_of_parents in Hin as [? _]. done. }
    assert (p ∉ parents paths) as Hpp.
    { intros Hin. apply Ha. by apply parents_anc. }
    destruct (m !! p) as [d|] eqn:E.
    - apply (inv_at_ext m); [|done|apply Hi]. by rewrite Hsd, s_insert_lookup, E.
    - intros d Hd Hne. exfalso. apply Hne. apply s_children_nil. intros c Hch. rewrite <-Hc by done.
      destruct (m !! c) as [e|] eqn:Ec; [|done]. exfalso.
      destruct (Ht c) as [_ Hpar]; [by apply elem_of_dom|].
      apply child_parent in Hch as [_ Epar]. rewrite Epar in Hpar. specialize (Hpar Hp).
      apply elem_of_dom in Hpar. rewrite E in Hpar. by destruct Hpar.
  Qed.
  Lemma base_rm m ps p :
    inv m → p ≠ [] → p ∉ ancestry (parents ps) → inv_at (s_rm m ps) p.
  Proof.
    intros Hi Hp Ha d Hd Hne. apply s_rm_lookup in Hd as [Hd Hf].
    assert (∀ c, child_of c p → m !! c = s_rm m ps !! c) as Hc.
    { intros c Hc. apply option_eq. intros e. rewrite s_rm_lookup. split; [|by intros [? _]].
      intros He. split; [done|]. apply Forall_forall. intros r Hr Hpre.
      pose proof Hc as [x ->]. apply prefix_snoc_inv in Hpre as [Hpre| ->].
      - rewrite Forall_forall in Hf. by apply (Hf r).
      - apply Ha. by eapply child_anc. }
    rewrite <-(s_children_ext m _ p Hc) in *. by apply Hi.
  Qed.
  Definition touches m ps : Prop := ∀ p c, p ∈ ps → child_of c p → c ∈ dom m → ∃ q, q ∈ ps ∧ below q p.
  Lemma base_upd m f ps p :
    touches m ps → p ≠ [] → p ∉ ancestry (parents ps) → inv_at m p → inv_at (s_upd m f ps) p.
  Proof.
    intros Ht Hp Ha Hi.
    assert (∀ c, child_of c p → m !! c = s_upd m f ps !! c) as Hc.
    { intros c Hc. rewrite s_upd_other; [done|]. intros Hin. apply Ha. by eapply child_anc. }
    destruct (decide (p ∈ ps)) as [Hin|Hin].
    - intros d _ Hne. exfalso. destruct (s_children m p) as [|e cs] eqn:Es.
      + apply Hne. eapply s_children_dom; [symmetry; apply dom_s_upd|done].
      + assert (e ∈ s_children m p) as He by (rewrite Es; left).
        apply elem_of_s_children in He as (c & Hch & Hce).
        destruct (Ht p c Hin Hch) as (q & Hq & Hb); [by apply elem_of_dom|].
        apply Ha. by eapply below_anc.
    - apply (inv_at_ext m); [|done|done]. by rewrite s_upd_other.
  Qed.
  Lemma touches_dom m m' ps : dom m = dom m' → touches m ps → touches m' ps.
  Proof. intros E Ht p c Hp Hc Hd. eapply Ht; [done|done|by rewrite E]. Qed.
End inv.

Lemma s_children_fmap {D E} (f : D → E) (m : gmap path D) p :
  map f (s_children m p) ≡ₚ s_children (f <$> m) p.
Proof.
  unfold s_children. rewrite map_filter_fmap.
  pose proof (map_to_list_fmap f (filter (λ kv, child_of kv.1 p) m)) as Hp.
  apply (Permutation_map snd) in Hp.
  assert (∀ l : list (path * D), map snd (prod_map id f <$> l) = map f (map snd l)) as Hm.
  { induction l as [|[??] l IH]; simpl; [done|]. by f_equal. }
  rewrite Hm in Hp. by symmetry.
Qed.

Section proj.
  Context {D X : Type} (F : list D → D → Prop) (π : D → X).
  Context (HF : ∀ cs cs' d d', map π cs ≡ₚ map π cs' → π d = π d' → F cs d → F cs' d').
  Implicit Types (m : gmap path D) (p q c : path) (ps paths : list path).
  Lemma inv_at_proj m m' p : π <$> m = π <$> m' → inv_at F m p → inv_at F m' p.
  Proof using HF.
    intros E Hi d Hd Hne.
    assert (map π (s_children m p) ≡ₚ map π (s_children m' p)) as Hp.
    { rewrite !s_children_fmap, E. done. }
    assert (∃ d0, m !! p = Some d0 ∧ π d0 = π d) as (d0 & Hd0 & Ed).
    { pose proof (f_equal (.!! p) E) as El. simpl in El. rewrite !lookup_fmap, Hd in El. simpl in El.
      apply fmap_Some in El as (d0 & Hd0 & ?). by exists d0. }
    apply (HF (s_children m p) _ d0 d); [done|done|]. apply Hi; [done|].
    intros E0. rewrite E0 in Hp. simpl in Hp. apply Permutation_nil in Hp.
    by destruct (s_children m' p).
  Qed.
  Lemma inv_proj m m' : π <$> m = π <$> m' → inv F m → inv F m'.
  Proof using HF. intros E Hi p. by apply (inv_at_proj m). Qed.
  Lemma fmap_s_recompute m g ps : (∀ cs d, π (g cs d) = π d) → π <$> m = π <$> s_recompute m g ps.
  Proof.
    intros Hg. apply map_eq. intros p. rewrite !lookup_fmap, s_recompute_spec.
    case_bool_decide; [|done]. destruct (m !! p); simpl; [by rewrite Hg|done].
  Qed.
  Lemma fmap_s_upd m f ps : (∀ d, π (f d) = π d) → π <$> m = π <$> s_upd m f ps.
  Proof.
    intros Hf. unfold s_upd. revert m. induction ps as [|q ps IH]; intros m; [done|]. cbn [foldl].
    rewrite <-IH. apply map_eq. intros p. rewrite !lookup_fmap.
    destruct (decide (p = q)) as [->|Hne]; [|by rewrite lookup_alter_ne].
    rewrite lookup_alter. destruct (m !! q); simpl; [by rewrite Hf|done].
  Qed.
End proj.

(** The three facts about a directory with children. *)
Definition Fprio (cs : list ldata) (d : ldata) : Prop := ld_prio d = foldr Qcplus 0%Qc (map ld_prio cs).
Definition Flocal (cs : list ldata) (d : ldata) : Prop := ld_local d = forallb id (map ld_local cs).
Definition Fdir {D} (dir : D → bool) (cs : list D) (d : D) : Prop := dir d = true.

Lemma sum_prio_map cs : sum_prio cs = foldr Qcplus 0%Qc (map ld_prio cs).
Proof. induction cs as [|d cs IH]; [done|]. simpl. by rewrite IH. Qed.
Lemma sumQ_perm l l' : l ≡ₚ l' → foldr Qcplus 0%Qc l = foldr Qcplus 0%Qc l'.
Proof.
  induction 1 as [|d l l' _ IH|d d' l|l1 l2 l3 _ IH1 _ IH2]; simpl; [done|by rewrite IH|ring|congruence].
Qed.
Lemma forallb_perm l l' : l ≡ₚ l' → forallb id l = forallb id l'.
Proof.
  induction 1 as [|d l l' _ IH|d d' l|l1 l2 l3 _ IH1 _ IH2]; simpl; [done|by rewrite IH| |congruence].
  destruct d, d'; done.
Qed.
Lemma Fprio_proj cs cs' d d' :
  map ld_prio cs ≡ₚ map ld_prio cs' → ld_prio d = ld_prio d' → Fprio cs d → Fprio cs' d'.
Proof. unfold Fprio. intros Hp <- ->. by apply sumQ_perm. Qed.
Lemma Flocal_proj cs cs' d d' :
  map ld_local cs ≡ₚ map ld_local cs' → ld_local d = ld_local d' → Flocal cs d → Flocal cs' d'.
Proof. unfold Flocal. intros Hp <- ->. by apply forallb_perm. Qed.
Lemma Fdir_proj {D} (dir : D → bool) cs cs' d d' :
  map dir cs ≡ₚ map dir cs' → dir d = dir d' → Fdir dir cs d → Fdir dir cs' d'.
Proof. unfold Fdir. by intros _ <-. Qed.
Lemma Fprio_g cs d : Fprio cs (g_prio cs d).
Proof. unfold Fprio. simpl. apply sum_prio_map. Qed.
Lemma Flocal_g cs d : cs ≠ [] → Flocal cs (g_local cs d).
Proof.
  unfold Flocal. simpl. destruct cs as [|c cs]; [done|]. intros _. unfold all_local.
  generalize (c :: cs) as l. intros l. induction l as [|x l IH]; [done|]. simpl. by rewrite IH.
Qed.

Lemma refresh_prio m ps :
  m !! [] = None → (∀ p, p ≠ [] → p ∉ ancestry ps → inv_at Fprio m p) → inv Fprio (sl_refresh m ps).
Proof.
  intros Hn Hb. unfold sl_refresh.
  apply (inv_proj Fprio ld_prio Fprio_proj (s_recompute m g_prio ps)).
  - by apply fmap_s_recompute.
  - apply recompute_inv; [intros; apply Fprio_g|done|done].
Qed.
Lemma refresh_local m ps :
  m !! [] = None → (∀ p, p ≠ [] → p ∉ ancestry ps → inv_at Flocal m p) → inv Flocal (sl_refresh m ps).
Proof.
  intros Hn Hb. unfold sl_refresh.
  apply recompute_inv; [apply Flocal_g| |].
  - apply not_elem_of_dom. rewrite dom_s_recompute. by apply not_elem_of_dom.
  - intros p Hp Ha. apply (inv_at_proj Flocal ld_local Flocal_proj m); [by apply fmap_s_recompute|by apply Hb].
Qed.
Lemma refresh_dir m ps : inv (Fdir ld_dir) m → inv (Fdir ld_dir) (sl_refresh m ps).
Proof.
  intros Hi. unfold sl_refresh. apply (inv_proj _ ld_dir (Fdir_proj ld_dir) (s_recompute m g_prio ps)).
  - by apply fmap_s_recompute.
  - apply (inv_proj _ ld_dir (Fdir_proj ld_dir) m); [by apply fmap_s_recompute|done].
Qed.

(** *** The directory mark, for both databases *)
Section dirmark.
  Context {D : Type} (dir : D → bool).
  Implicit Types (m : gmap path D).
  Lemma has_child_dom m m' p : (∀ c, child_of c p → c ∈ dom m' → c ∈ dom m) → s_children m' p ≠ [] → s_children m p ≠ [].
  Proof.
    intros Hc Hne Hnil. apply Hne. apply s_children_nil. rewrite s_children_nil in Hnil.
    intros c Hch. destruct (m' !! c) as [d|] eqn:E; [|done]. exfalso.
    assert (c ∈ dom m) as Hd by (apply Hc; [done|by apply elem_of_dom]).
    apply elem_of_dom in Hd. rewrite Hnil in Hd by done. by destruct Hd.
  Qed.
  Lemma add_dir m mk sd paths :
    (∀ d, dir (sd d) = true) → (∀ d, sd (sd d) = sd d) → [] ∉ paths →
    inv (Fdir dir) m → tree_ok m → inv (Fdir dir) (s_add m mk sd paths).
  Proof.
    intros Hsd Hid Hnil Hi Ht p d Hd Hne. unfold Fdir.
    destruct (decide (p ∈ parents paths)) as [Hin|Hin].
    { unfold s_add in Hd. rewrite s_upd_lookup, bool_decide_true in Hd by auto.
      apply fmap_Some in Hd as (d0 & _ & ->). apply Hsd. }
    unfold s_add in Hd. rewrite s_upd_other, s_insert_lookup in Hd by done.
    destruct (decide (p = [])) as [->|Hp].
    { rewrite (bool_decide_false ([] ∈ paths)) in Hd by done. destruct (m !! []) as [e|] eqn:Ee; [|done].
      destruct (Ht []) as [? _]; [by apply elem_of_dom|done]. }
    assert (∀ c, child_of c p → c ∈ dom (s_add m mk sd paths) → c ∈ dom m) as Hcm.
    { intros c Hc Hcd. rewrite dom_s_add, elem_of_union, elem_of_list_to_set in Hcd.
      destruct Hcd as [?|Hcp]; [done|].
      exfalso. apply Hin. apply elem_of_parents. split; [done|]. exists c. split; [done|].
      by apply child_parent in Hc as [_ <-]. }
    pose proof (has_child_dom _ _ _ Hcm Hne) as Hne'.
    destruct (s_children m p) as [|e cs] eqn:Es; [done|].
    assert (e ∈ s_children m p) as He by (rewrite Es; left).
    apply elem_of_s_children in He as (c & Hc & He).
    destruct (Ht c) as [_ Hpar]; [by apply elem_of_dom|].
    pose proof Hc as Hc'. apply child_parent in Hc' as [_ Ep]. rewrite Ep in Hpar.
    specialize (Hpar Hp). apply elem_of_dom in Hpar as [d0 Hd0]. rewrite Hd0 in Hd. injection Hd as <-.
    apply (Hi p d0 Hd0). by rewrite Es.
  Qed.
  Lemma rm_dir m ps : inv (Fdir dir) m → inv (Fdir dir) (s_rm m ps).
  Proof.
    intros Hi p d Hd Hne. apply s_rm_lookup in Hd as [Hd _]. apply (Hi p d Hd).
    eapply has_child_dom; [|exact Hne]. intros c _ Hc. by apply elem_of_dom_s_rm in Hc as [? _].
  Qed.
  Lemma upd_dir m f ps : (∀ d, dir d = true → dir (f d) = true) → inv (Fdir dir) m → inv (Fdir dir) (s_upd m f ps).
  Proof.
    intros Hf. unfold s_upd. revert m. induction ps as [|q ps IH]; intros m Hi; [done|]. cbn [foldl].
    apply IH. intros p d Hd Hne. unfold Fdir.
    assert (s_children m p ≠ []) as Hne'.
    { eapply has_child_dom; [|exact Hne]. intros c _ Hc. by rewrite dom_alter_L in Hc. }
    destruct (decide (p = q)) as [->|Hpq].
    - rewrite lookup_alter in Hd. apply fmap_Some in Hd as (d0 & Hd0 & ->). apply Hf. by apply (Hi q d0).
    - rewrite lookup_alter_ne in Hd by done. by apply (Hi p d).
  Qed.
End dirmark.

(** ** Steps *)
(** An update that changes a directory with children also changes something
    below it, and never marks a path as a file. *)
Definition lop_keep (m : gmap path ldata) (o : lop) : Prop :=
  match o with
  | LUpdate ps dir _ _ => touches m ps ∧ dir ≠ Some false
  | LIncrement ps _ => touches m ps
  | _ => True
  end.
Definition rop_keep (m : gmap path rdata) (o : rop) : Prop :=
  match o with
  | RUpdate _ dir _ => dir ≠ Some false
  | _ => True
  end.

Definition linv (m : gmap path ldata) : Prop := inv Fprio m ∧ inv Flocal m ∧ inv (Fdir ld_dir) m.

Lemma tree_nil {D} (m : gmap path D) : tree_ok m → m !! [] = None.
Proof.
  intros Ht. destruct (m !! []) as [d|] eqn:E; [|done]. destruct (Ht []) as [? _]; [by apply elem_of_dom|done].
Qed.
Lemma s_add_nil {D} (m : gmap path D) mk sd paths :
  tree_ok m → [] ∉ paths → s_add m mk sd paths !! [] = None.
Proof.
  intros Ht Hn. apply not_elem_of_dom. rewrite dom_s_add, not_elem_of_union, elem_of_list_to_set. split; [|done].
  by apply not_elem_of_dom, tree_nil.
Qed.
Lemma parents_ok_nil {D} (m : gmap path D) paths : parents_ok m paths → [] ∉ paths.
Proof. intros Hp Hin. by destruct (Hp [] Hin). Qed.

Lemma linv_add m files dirs prio local :
  tree_ok m → linv m → parents_ok m (files ++ dirs) → linv (sl_add m files dirs prio local).
Proof.
  intros Ht (Ip & Il & Id) Hok. apply parents_ok_nil in Hok. unfold sl_add. split; [|split].
  - apply refresh_prio; [by apply s_add_nil|]. intros p Hp Ha. by apply base_add.
  - apply refresh_local; [by apply s_add_nil|]. intros p Hp Ha. by apply base_add.
  - apply refresh_dir. by apply add_dir.
Qed.
Lemma linv_upd m ps dir prio local :
  tree_ok m → linv m → touches m ps → dir ≠ Some false → linv (sl_update m ps dir prio local).
Proof.
  intros Ht (Ip & Il & Id) Hto Hd. unfold sl_update.
  set (m1 := s_upd m (opt_apply set_ldir dir) ps).
  set (m2 := s_upd m1 (opt_apply set_prio prio) ps).
  set (m3 := s_upd m2 (opt_apply set_local local) ps).
  assert (dom m = dom m1) as E1 by (symmetry; apply dom_s_upd).
  assert (dom m = dom m2) as E2 by (rewrite E1; symmetry; apply dom_s_upd).
  assert (m3 !! [] = None) as Hn.
  { apply not_elem_of_dom. unfold m3. rewrite dom_s_upd, <-E2. by apply not_elem_of_dom, tree_nil. }
  split; [|split].
  - apply refresh_prio; [done|]. intros p Hp Ha.
    apply base_upd; [by eapply touches_dom|done|done|].
    apply base_upd; [by eapply touches_dom|done|done|].
    by apply base_upd.
  - apply refresh_local; [done|]. intros p Hp Ha.
    apply base_upd; [by eapply touches_dom|done|done|].
    apply base_upd; [by eapply touches_dom|done|done|].
    by apply base_upd.
  - apply refresh_dir. apply upd_dir; [by destruct local|]. apply upd_dir; [by destruct prio|].
    apply upd_dir; [by destruct dir as [[]|]|done].
Qed.
Lemma linv_rm m ps : tree_ok m → linv m → linv (sl_rm m ps).
Proof.
  intros Ht (Ip & Il & Id). unfold sl_rm.
  assert (s_rm m ps !! [] = None) as Hn.
  { apply not_elem_of_dom. rewrite elem_of_dom_s_rm. intros [Hd _]. by apply Ht in Hd as [? _]. }
  split; [|split].
  - apply refresh_prio; [done|]. intros p Hp Ha. by apply base_rm.
  - apply refresh_local; [done|]. intros p Hp Ha. by apply base_rm.
  - apply refresh_dir. by apply rm_dir.
Qed.
Lemma linv_increment m ps q : tree_ok m → linv m → touches m ps → linv (sl_increment m ps q).
Proof.
  intros Ht (Ip & Il & Id) Hto. unfold sl_increment.
  set (f := λ d, set_prio (ld_prio d + q)%Qc d). split; [|split].
  - apply recompute_inv; [intros; apply Fprio_g| |].
    + apply not_elem_of_dom. rewrite dom_s_upd. by apply not_elem_of_dom, tree_nil.
    + intros p Hp Ha. by apply base_upd.
  - apply (inv_proj _ ld_local Flocal_proj m); [|done].
    rewrite <-fmap_s_recompute by done. by apply fmap_s_upd.
  - apply (inv_proj _ ld_dir (Fdir_proj ld_dir) m); [|done].
    rewrite <-fmap_s_recompute by done. by apply fmap_s_upd.
Qed.
Lemma linv_adjust m q : linv m → linv (sl_adjust m q).
Proof.
  intros (Ip & Il & Id). unfold sl_adjust. split; [|split].
  - intros p d Hd Hne. rewrite lookup_fmap in Hd. apply fmap_Some in Hd as (d0 & Hd0 & ->).
    unfold Fprio. simpl.
    rewrite (sumQ_perm _ (map ld_prio (map (λ d, set_prio (ld_prio d * q) d) (s_children m p)))).
    2:{ apply Permutation_map. symmetry. apply s_children_fmap. }
    rewrite (Ip p d0 Hd0).
    + rewrite map_map. simpl. induction (s_children m p) as [|c cs IH]; simpl; [ring|]. rewrite <-IH. ring.
    + intros E. apply Hne. eapply s_children_dom; [|exact E]. symmetry. apply dom_fmap_L.
  - apply (inv_proj _ ld_local Flocal_proj m); [|done]. rewrite <-map_fmap_compose. by apply map_fmap_ext.
  - apply (inv_proj _ ld_dir (Fdir_proj ld_dir) m); [|done]. rewrite <-map_fmap_compose. by apply map_fmap_ext.
Qed.
Lemma linv_step m o m' :
  tree_ok m → linv m → lop_ok m o → lop_keep m o → sl_step m o = Some m' → linv m'.
Proof.
  intros Ht Hi Hok Hk E. destruct o as [files dirs prio local|files dirs|ps dir prio local|ps|ps q|q]; simpl in *.
  - simplify_eq. by apply linv_add.
  - unfold sl_add_inflated in E. destruct (sl_max m); [|by case_bool_decide; simplify_eq].
    simplify_eq. by apply linv_add.
  - simplify_eq. destruct Hk. by apply linv_upd.
  - simplify_eq. by apply linv_rm.
  - simplify_eq. by apply linv_increment.
  - simplify_eq. by apply linv_adjust.
Qed.

Section runs.
  Context (H : path → str → Z) (salts : nat → str) (iter : list path → list path).
  Context (Hcf : collision_free H) (Hiter : ∀ l, iter l ≡ₚ l).
  Lemma good_tree {D} (t : tables D) m : good H t m → tree_ok m.
  Proof. intros [R _] p Hp. by apply (r_par _ _ _ R). Qed.
  Lemma good_empty {D} : good H (t_empty (D:=D)) ∅.
  Proof. split; [apply repr_empty|done]. Qed.
  Lemma linv_run os : ∀ t m n t' n',
    good H t m → linv m → run_ok sl_step (λ m o, lop_ok m o ∧ lop_keep m o) m os →
    run (l_step H salts iter) (t, n) os = Some (t', n') → ∃ m', good H t' m' ∧ linv m'.
  Proof using Hcf Hiter.
    induction os as [|o os IH]; intros t m n t' n' G Hi Hok; cbn [run].
    - intros E. simplify_eq. eauto.
    - destruct Hok as [[Ho Hk] Hok]. pose proof (good_l_step H salts iter Hcf Hiter t m n o G Ho) as Hs.
      destruct (sl_step m o) as [m1|] eqn:E1; [|by rewrite Hs].
      destruct Hs as (t1 & n1 & -> & G1). intros E.
      apply (IH t1 m1 n1 t' n'); [done| |by apply Hok|done].
      exact (linv_step m o m1 (good_tree t m G) Hi Ho Hk E1).
  Qed.
  Lemma rinv_run os : ∀ t m n t' n',
    good H t m → inv (Fdir rd_dir) m → run_ok sr_step (λ m o, rop_ok m o ∧ rop_keep m o) m os →
    run (r_step H salts iter) (t, n) os = Some (t', n') → ∃ m', good H t' m' ∧ inv (Fdir rd_dir) m'.
  Proof using Hcf Hiter.
    induction os as [|o os IH]; intros t m n t' n' G Hi Hok; cbn [run].
    - intros E. simplify_eq. eauto.
    - destruct Hok as [[Ho Hk] Hok].
      destruct (good_r_step H salts iter Hcf Hiter t m n o G Ho) as (m1 & t1 & n1 & E1 & E2 & G1).
      rewrite E2. intros E. apply (IH t1 m1 n1 t' n'); [done| |by apply Hok|done].
      pose proof (good_tree _ _ G) as Ht.
      destruct o as [files dirs now|ps dir last|ps]; simpl in E1; simplify_eq.
      + apply add_dir; [done|done|by eapply parents_ok_nil|done|done].
      + apply upd_dir; [by destruct last|]. apply upd_dir; [by destruct dir as [[]|]|done].
      + by apply rm_dir.
  Qed.
End runs.
