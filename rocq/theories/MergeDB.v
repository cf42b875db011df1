(** What the operations on the databases do to the kinds of the paths. *)
From Coq Require Import QArith Qcanon.
From Verif Require Export DBInv InitProofs.
From stdpp Require Import options.

Section add.
  Context {D : Type} (dir : D → bool).
  Lemma s_add_kind (m : gmap path D) mk sd paths (K : path → option bool) :
    (∀ d, dir (sd d) = true) → (∀ d, sd (sd d) = sd d) →
    (∀ p b, dir <$> m !! p = Some b → K p = Some b) →
    (∀ p, p ∈ paths → m !! p = None → K p = Some (dir (mk p))) →
    (∀ p, p ∈ parents paths → K p = Some true) →
    ∀ p, dir <$> s_add m mk sd paths !! p = if decide (p ∈ paths ∨ is_Some (m !! p)) then K p else None.
  Proof.
    intros Hsd Hid Hm Hp Hpar p. unfold s_add. rewrite s_upd_lookup by (by left). rewrite s_insert_lookup.
    assert (E : dir <$> (match m !! p with Some d => Some d | None => if bool_decide (p ∈ paths) then Some (mk p) else None end)
      = if decide (p ∈ paths ∨ is_Some (m !! p)) then K p else None).
    { destruct (m !! p) as [d|] eqn:Ed.
      - rewrite decide_True by (right; by eexists). symmetry. apply Hm. by rewrite Ed.
      - case_bool_decide as Hin.
        + rewrite decide_True by (by left). symmetry. by apply Hp.
        + rewrite decide_False; [done|]. intros [?|[? ?]]; [done|congruence]. }
    destruct (bool_decide_reflect (p ∈ parents paths)) as [Hin|Hin]; [|exact E]. rewrite <-E.
    pose proof (Hpar _ Hin) as Ht.
    destruct (m !! p) as [d|] eqn:Ed; cbn in *.
    - rewrite Hsd. rewrite decide_True in E by (right; by eexists). congruence.
    - case_bool_decide as Hin'; cbn; [|done]. rewrite Hsd. rewrite decide_True in E by (by left). cbn in E. congruence.
  Qed.
  Lemma s_rm_kind (m : gmap path D) ps p :
    dir <$> s_rm m ps !! p = if decide (Exists (λ q, q `prefix_of` p) ps) then None else dir <$> m !! p.
  Proof.
    case_decide as He.
    - destruct (s_rm m ps !! p) as [d|] eqn:E; [|done]. apply s_rm_lookup in E as [_ Hf]. exfalso.
      apply Exists_exists in He as (q & Hq & Hpre). rewrite Forall_forall in Hf. by apply (Hf q).
    - f_equal. apply option_eq. intros d. rewrite s_rm_lookup. split; [naive_solver|]. intros Hd. split; [done|].
      apply Forall_forall. intros q Hq Hpre. apply He. apply Exists_exists. eauto.
  Qed.
End add.

Lemma set_ldir_true d : ld_dir (set_ldir true d) = true.
Proof. by destruct d. Qed.
Lemma sl_refresh_kind m ps p : ld_dir <$> sl_refresh m ps !! p = ld_dir <$> m !! p.
Proof.
  unfold sl_refresh. rewrite <-!lookup_fmap. f_equal. symmetry.
  rewrite (fmap_s_recompute ld_dir m g_prio ps) by (by intros ? []).
  apply fmap_s_recompute. by intros ? [].
Qed.
Lemma sl_rm_kind m ps p :
  ld_dir <$> sl_rm m ps !! p = if decide (Exists (λ q, q `prefix_of` p) ps) then None else ld_dir <$> m !! p.
Proof. unfold sl_rm. rewrite sl_refresh_kind. apply s_rm_kind. Qed.
Lemma s_upd_kind {D} (dir : D → bool) (m : gmap path D) f ps p : (∀ d, dir (f d) = dir d) → dir <$> s_upd m f ps !! p = dir <$> m !! p.
Proof. intros Hf. rewrite <-!lookup_fmap. f_equal. symmetry. by apply fmap_s_upd. Qed.
Lemma sl_update_kind m ps prio local p : ld_dir <$> sl_update m ps None prio local !! p = ld_dir <$> m !! p.
Proof.
  unfold sl_update. rewrite sl_refresh_kind. rewrite !s_upd_kind; [done|..]; intros []; [done|by destruct prio|by destruct local].
Qed.
Lemma sl_add_kind m files dirs prio local (K : path → option bool) :
  (∀ p b, ld_dir <$> m !! p = Some b → K p = Some b) →
  (∀ p, p ∈ files ++ dirs → m !! p = None → K p = Some (bool_decide (p ∈ dirs))) →
  (∀ p, p ∈ files ++ dirs → parent p = [] ∨ K (parent p) = Some true) →
  ∀ p, ld_dir <$> sl_add m files dirs prio local !! p = if decide (p ∈ files ++ dirs ∨ is_Some (m !! p)) then K p else None.
Proof.
  intros Hm Hp Hpar p. unfold sl_add. rewrite sl_refresh_kind. apply s_add_kind; [by intros []|by intros []|done|done|].
  intros q (Hq & r & Hr & ->)%elem_of_parents. by destruct (Hpar _ Hr).
Qed.
Lemma sr_add_kind m files dirs now (K : path → option bool) :
  (∀ p b, rd_dir <$> m !! p = Some b → K p = Some b) →
  (∀ p, p ∈ files ++ dirs → m !! p = None → K p = Some (bool_decide (p ∈ dirs))) →
  (∀ p, p ∈ files ++ dirs → parent p = [] ∨ K (parent p) = Some true) →
  ∀ p, rd_dir <$> sr_add m files dirs now !! p = if decide (p ∈ files ++ dirs ∨ is_Some (m !! p)) then K p else None.
Proof.
  intros Hm Hp Hpar p. unfold sr_add. apply s_add_kind; [by intros []|by intros []|done|done|].
  intros q (Hq & r & Hr & ->)%elem_of_parents. by destruct (Hpar _ Hr).
Qed.
Lemma sr_update_kind m ps last p : rd_dir <$> sr_update m ps None last !! p = rd_dir <$> m !! p.
Proof. unfold sr_update. rewrite !s_upd_kind; [done|..]; intros []; [done|by destruct last]. Qed.

(** The time of a row: now for the paths [U] and for new rows; that of the
    earlier row otherwise. *)
Definition stamp (now : Z) (m : gmap path rdata) (p : path) : Z :=
  match m !! p with Some d => rd_last d | None => now end.
Definition since (now : Z) (U : path → Prop) (m m' : gmap path rdata) : Prop :=
  ∀ p d, m' !! p = Some d → (U p ∧ rd_last d = now) ∨ (¬ U p ∧ rd_last d = stamp now m p).
Local Notation none := (λ _ : path, False).
Lemma since_refl now m : since now none m m.
Proof. intros p d Hd. right. unfold stamp. rewrite Hd. auto. Qed.
Lemma since_trans now m m' m'' : since now none m m' → since now none m' m'' → (∀ p, is_Some (m'' !! p) → is_Some (m' !! p)) → since now none m m''.
Proof.
  intros H1 H2 Hs p d Hd. destruct (Hs p) as [d' Hd']; [by eexists|]. destruct (H2 _ _ Hd) as [[[] _]|[_ E]]. unfold stamp in E.
  rewrite Hd' in E. rewrite E. by apply H1.
Qed.
Lemma since_add now m files dirs : since now none m (sr_add m files dirs now).
Proof.
  intros p d. unfold sr_add, s_add. rewrite s_upd_lookup by (left; by intros []). rewrite s_insert_lookup. intros Hd. right. split; [tauto|].
  revert d Hd. unfold stamp.
  assert (∀ d, match m !! p with Some d => Some d | None => if bool_decide (p ∈ files ++ dirs) then Some (RData (bool_decide (p ∈ dirs)) now) else None end = Some d →
    rd_last d = match m !! p with Some d => rd_last d | None => now end) as Ha.
  { intros d'. destruct (m !! p) as [d0|]; [by intros [= ->]|]. case_bool_decide; [by intros [= <-]|done]. }
  destruct (bool_decide (p ∈ parents (files ++ dirs))); [|by apply Ha]. intros d (d' & Hd' & ->)%fmap_Some. rewrite <-(Ha _ Hd'). by destruct d'.
Qed.
Lemma since_rm now U m m' ps : since now U m m' → since now U m (sr_rm m' ps).
Proof. intros Hs p d [Hd _]%s_rm_lookup. by apply Hs. Qed.
Lemma since_update now (U : path → Prop) m m' ps : (∀ p d, m' !! p = Some d → ¬ U p → rd_last d = stamp now m p) → (∀ p, p ∈ ps ↔ U p) →
  since now U m (sr_update m' ps None (Some now)).
Proof.
  intros Hs HU p d. unfold sr_update. rewrite s_upd_lookup by (left; by intros []). rewrite s_upd_lookup by (left; by intros []).
  case_bool_decide as Hp.
  - intros (d' & _ & ->)%fmap_Some. left. split; [by apply HU|by destruct d'].
  - intros Hd. right. rewrite HU in Hp. split; [done|]. by apply Hs.
Qed.

(** The rows of files. *)
Lemma anc_over p ps : p ∈ ancestry (parents ps) → ∃ r, r ∈ ps ∧ below r p.
Proof.
  intros (Hn & q & Hq & Hpre)%elem_of_ancestry. apply elem_of_parents in Hq as (Hq & r & Hr & ->). exists r. split; [done|].
  destruct r as [|x r _] using rev_ind; [done|]. rewrite parent_snoc in *. destruct Hpre as [s ->]. rewrite <-app_assoc.
  destruct (s ++ [x]) as [|y l] eqn:E; [by destruct s|]. by exists y, l.
Qed.
Lemma sl_refresh_other m ps p : ¬ (∃ r, r ∈ ps ∧ below r p) → sl_refresh m (parents ps) !! p = m !! p.
Proof.
  intros Hno. assert (p ∉ ancestry (parents ps)) as Ha by (by intros ?%anc_over).
  unfold sl_refresh. rewrite !s_recompute_spec. by rewrite !bool_decide_false.
Qed.
Lemma sl_add_file m files dirs prio local p d : ¬ (∃ r, r ∈ files ++ dirs ∧ below r p) →
  sl_add m files dirs prio local !! p = Some d →
  m !! p = Some d ∨ (m !! p = None ∧ p ∈ files ++ dirs ∧ d = LData (bool_decide (p ∈ dirs)) prio local).
Proof.
  intros Hno. unfold sl_add. rewrite sl_refresh_other by done. unfold s_add. rewrite s_upd_lookup by (left; by intros []).
  rewrite bool_decide_false.
  - rewrite s_insert_lookup. destruct (m !! p); [by left|]. case_bool_decide; [|done]. intros [= <-]. by right.
  - intros (Hn & r & Hr & ->)%elem_of_parents. apply Hno. exists r. split; [done|].
    destruct r as [|x r _] using rev_ind; [done|]. rewrite parent_snoc. by exists x, [].
Qed.
Lemma sl_rm_file m ps p d : ¬ (∃ r, r ∈ ps ∧ below r p) → sl_rm m ps !! p = Some d → m !! p = Some d.
Proof. intros Hno. unfold sl_rm. rewrite sl_refresh_other by done. by intros [? _]%s_rm_lookup. Qed.
Lemma sl_local_file m ps b p : ¬ (∃ r, r ∈ ps ∧ below r p) →
  sl_update m ps None None (Some b) !! p = if bool_decide (p ∈ ps) then set_local b <$> m !! p else m !! p.
Proof.
  intros Hno. unfold sl_update. rewrite sl_refresh_other by done. rewrite s_upd_lookup by (left; by intros []).
  rewrite !s_upd_lookup by (left; by intros []). cbn. repeat case_bool_decide; try done; by rewrite ?option_fmap_id.
Qed.
