(** A sync of a clean state, step by step. *)
From Coq Require Import QArith Qcanon.
From Verif Require Export MergeFacts MergeDB.
From Verif Require Import Prop_Detect.
From stdpp Require Import options.

Lemma max_prio_some l d : d ∈ l → ld_dir d = false → is_Some (max_prio l).
Proof.
  induction l as [|d' l IH]; intros Hd Hf; [by apply elem_of_nil in Hd|].
  apply elem_of_cons in Hd as [->|Hd]; cbn.
  - rewrite Hf. by eexists.
  - destruct (ld_dir d'); [by apply IH|by eexists].
Qed.
Lemma sl_max_some (m : lmap) p : ld_dir <$> m !! p = Some false → is_Some (sl_max m).
Proof.
  intros Hp. destruct (m !! p) as [d|] eqn:E; [|done]. injection Hp as Hp. unfold sl_max. eapply max_prio_some; [|exact Hp].
  apply elem_of_list_fmap. exists (p, d). split; [done|]. by apply elem_of_map_to_list.
Qed.

(** Adding paths to both databases; [K] is the kind of each path. *)
Lemma add_both_wp (C : conf) (I : world → Prop) (Q : res unit → world → Prop) (w : world) (fi di f d : pset) (K : path → option bool) :
  (∀ l, c_iter C l ≡ₚ l) →
  (c_inflate C = true → fi ∪ di ≠ ∅ → ∃ p, ld_dir <$> v_ldb w !! p = Some false) →
  fi ⊆ f → di ⊆ d → (∀ p, p ∈ fi → p ∈ d → p ∈ di) →
  (∀ p b, ld_dir <$> v_ldb w !! p = Some b ∨ rd_dir <$> v_rdb w !! p = Some b → K p = Some b) →
  (∀ p, p ∈ f ∪ d → v_ldb w !! p = None ∨ v_rdb w !! p = None → K p = Some (bool_decide (p ∈ d))) →
  (∀ p, p ∈ f ∪ d → parent p = [] ∨ K (parent p) = Some true) →
  (∀ p r, r ∈ f ∪ d → below r p → K p ≠ Some false) →
  (∀ (l : lmap) (r : rmap),
     (∀ p, ld_dir <$> l !! p = if decide (p ∈ f ∪ d ∨ is_Some (v_ldb w !! p)) then K p else None) →
     (∀ p, rd_dir <$> r !! p = if decide (p ∈ f ∪ d ∨ is_Some (v_rdb w !! p)) then K p else None) →
     (∀ p x, l !! p = Some x → ld_dir x = false → v_ldb w !! p = Some x ∨ (v_ldb w !! p = None ∧ ld_local x = true
        ∧ (c_inflate C = true → p ∈ fi ∪ di → sl_max (v_ldb w) = Some (ld_prio x))
        ∧ (¬ (c_inflate C = true ∧ p ∈ fi ∪ di) → ld_prio x = 0%Qc))) →
     since (c_now C) (λ _, False) (v_rdb w) r → Q (Ok tt) (set_vldb l (set_vrdb r w))) →
  wp (add_both C fi di f d) I Q w.
Proof.
  intros Hit Hinf Hf Hd Hfd HK Hnew Hpar Hover HQ.
  assert (Hin : ∀ (a b : pset) p, p ∈ c_iter C (elements a) ++ c_iter C (elements b) ↔ p ∈ a ∪ b).
  { intros a b p. rewrite elem_of_app, !Hit, !elem_of_elements. set_solver. }
  assert (Hmid : ∃ l0, (∀ p, ld_dir <$> l0 !! p = if decide (p ∈ (if c_inflate C then fi ∪ di else ∅) ∨ is_Some (v_ldb w !! p)) then K p else None) ∧
     (∀ p x, l0 !! p = Some x → ld_dir x = false → v_ldb w !! p = Some x ∨ (v_ldb w !! p = None ∧ ld_local x = true
        ∧ c_inflate C = true ∧ p ∈ fi ∪ di ∧ sl_max (v_ldb w) = Some (ld_prio x))) ∧
     (if c_inflate C then add_inflated C fi di else ret tt) w = ([], set_vldb l0 w, Ok tt)).
  { destruct (c_inflate C) eqn:Ei.
    - unfold add_inflated, sl_add_inflated. destruct (decide (fi ∪ di = ∅)) as [He|He].
      + assert (fi = ∅) as -> by set_solver. assert (di = ∅) as -> by set_solver.
        rewrite elements_empty. assert (c_iter C [] = []) as -> by (apply Permutation_nil; by rewrite Hit).
        exists (match sl_max (v_ldb w) with Some q => sl_add (v_ldb w) [] [] q true | None => v_ldb w end). split.
        * intros p. assert (Hs : ∀ q, ld_dir <$> sl_add (v_ldb w) [] [] q true !! p = ld_dir <$> v_ldb w !! p).
          { intros q. rewrite (sl_add_kind _ [] [] q true K); [|naive_solver|intros ? ?%elem_of_nil; done|intros ? ?%elem_of_nil; done].
            cbn. case_decide as Hdec.
            - destruct (v_ldb w !! p) as [d0|] eqn:E; [|destruct Hdec as [?%elem_of_nil|[? ?]]; done]. apply HK. left. by rewrite E.
            - destruct (v_ldb w !! p) eqn:E; [|done]. destruct Hdec. right. by eexists. }
          assert (Hs' : ld_dir <$> match sl_max (v_ldb w) with Some q => sl_add (v_ldb w) [] [] q true | None => v_ldb w end !! p = ld_dir <$> v_ldb w !! p)
            by (by destruct (sl_max (v_ldb w))).
          rewrite Hs'. case_decide as Hdec.
          -- destruct (v_ldb w !! p) as [d0|] eqn:E; [|destruct Hdec as [?|[? ?]]; set_solver]. symmetry. apply HK. left. by rewrite E.
          -- destruct (v_ldb w !! p) eqn:E; [|done]. destruct Hdec. right. by eexists.
        * split; [|unfold bind, eval, mut; by destruct (sl_max (v_ldb w))]. intros p x Hx _. left.
          assert (∀ q, sl_add (v_ldb w) [] [] q true = v_ldb w) as Hs. { intros q. unfold sl_add, sl_refresh, s_add, s_insert. cbn [app]. change (parents []) with (@nil path). rewrite !s_recompute_nil. apply map_union_empty. }
          destruct (sl_max (v_ldb w)); [by rewrite Hs in Hx|done].
      + destruct (Hinf eq_refl He) as [p0 Hp0]. destruct (sl_max_some _ _ Hp0) as [q Eq].
        exists (sl_add (v_ldb w) (c_iter C (elements fi)) (c_iter C (elements di)) q true). 
        assert (Hk : ∀ p, ld_dir <$> sl_add (v_ldb w) (c_iter C (elements fi)) (c_iter C (elements di)) q true !! p = if decide (p ∈ fi ∪ di ∨ is_Some (v_ldb w !! p)) then K p else None).
        { intros p. rewrite (sl_add_kind _ _ _ q true K).
          * apply decide_ext. by rewrite Hin.
          * naive_solver.
          * intros p' Hp'%Hin Hn. rewrite (Hnew p'); [|set_solver|by left]. f_equal. apply bool_decide_ext.
            rewrite Hit, elem_of_elements. set_solver.
          * intros p' Hp'%Hin. apply Hpar. set_solver. }
        split; [exact Hk|]. split; [|unfold bind, eval, mut; by rewrite Eq].
        intros p x Hx Hxd. pose proof (Hk p) as E. rewrite Hx in E. apply sl_add_file in Hx as [?|(Hn & Hp & ->)]; [by left| |].
        * right. apply Hin in Hp. done.
        * intros (r & Hr%Hin & Hb). apply (Hover p r); [set_solver|done|]. cbn in E. case_decide; [|done]. rewrite <-E. by rewrite Hxd.
    - exists (v_ldb w). split; [|split; [by left|by destruct w]].
      intros p. case_decide as Hdec.
      + destruct (v_ldb w !! p) as [d0|] eqn:E; [|destruct Hdec as [?|[? ?]]; set_solver]. symmetry. apply HK. left. by rewrite E.
      + destruct (v_ldb w !! p) eqn:E; [|done]. destruct Hdec. right. by eexists. }
  destruct Hmid as (l0 & Hl0 & Hrow & Erun).
  unfold add_both. apply wp_bind. eapply wp_run; [exact Erun|done|]. cbn beta iota.
  apply wp_bind, wp_mut. apply wp_mut. unfold set_vldb, set_vrdb. cbn [w_fs w_ldb w_rdb w_last v_ldb v_rdb v_lscan v_rscan v_excl].
  assert (Hlk : ∀ p, ld_dir <$> sl_add l0 (c_iter C (elements f)) (c_iter C (elements d)) 0%Qc true !! p = if decide (p ∈ f ∪ d ∨ is_Some (v_ldb w !! p)) then K p else None).
  { intros p. rewrite (sl_add_kind _ _ _ _ _ K).
    + destruct (decide (p ∈ f ∪ d ∨ is_Some (v_ldb w !! p))) as [Hdec|Hdec].
      * rewrite decide_True; [done|]. rewrite Hin. destruct Hdec as [?|[d0 E]]; [by left|right].
        pose proof (Hl0 p) as E'. rewrite decide_True in E' by (right; by eexists).
        rewrite (HK p (ld_dir d0)) in E' by (left; by rewrite E). destruct (l0 !! p); [by eexists|done].
      * rewrite decide_False; [done|]. rewrite Hin. intros [?|[d0 E]]; [naive_solver|].
        pose proof (Hl0 p) as E'. rewrite decide_False in E'; [by rewrite E in E'|].
        intros [Hx|?]; [|naive_solver]. apply Hdec. left. destruct (c_inflate C); set_solver.
    + intros p' b Hb. rewrite Hl0 in Hb. case_decide; [done|done].
    + intros p' Hp'%Hin Hn. rewrite (Hnew p' Hp').
      * f_equal. apply bool_decide_ext. by rewrite Hit, elem_of_elements.
      * left. pose proof (Hl0 p') as E'. rewrite Hn in E'. destruct (v_ldb w !! p') as [d0|] eqn:E; [|done].
        rewrite decide_True in E' by (right; by eexists). rewrite (HK p' (ld_dir d0)) in E' by (left; by rewrite E). done.
    + intros p' Hp'%Hin. by apply Hpar. }
  apply (HQ (sl_add l0 _ _ _ _) (sr_add (v_rdb w) _ _ _)); [exact Hlk|..].
  - intros p. rewrite (sr_add_kind _ _ _ _ K).
    + apply decide_ext. by rewrite Hin.
    + naive_solver.
    + intros p' Hp'%Hin Hn. rewrite (Hnew p' Hp') by (by right). f_equal. apply bool_decide_ext. by rewrite Hit, elem_of_elements.
    + intros p' Hp'%Hin. by apply Hpar.
  - intros p x Hx Hxd. pose proof (Hlk p) as E. rewrite Hx in E. apply sl_add_file in Hx as [Hx|(Hn & Hp & ->)].
    + destruct (Hrow p x Hx Hxd) as [?|(? & ? & ? & ? & ?)]; [by left|right]. split; [done|]. split; [done|]. split; [done|]. intros Hno. by destruct Hno.
    + right. cbn. assert (v_ldb w !! p = None) as E1.
      { destruct (v_ldb w !! p) as [y|] eqn:Ey; [|done]. pose proof (Hl0 p) as E'. rewrite Hn, decide_True in E' by (right; by eexists).
        rewrite (HK p (ld_dir y)) in E' by (left; by rewrite Ey). done. }
      split; [done|]. split; [done|]. split; [|done]. intros Hi Hp'. exfalso. pose proof (Hl0 p) as E'. rewrite Hi, Hn, decide_True in E' by (by left).
      rewrite (Hnew p) in E' by (set_solver || by left). done.
    + intros (r & Hr%Hin & Hb). apply (Hover p r); [done|done|]. cbn in E. case_decide; [|done]. rewrite <-E. by rewrite Hxd.
  - apply since_add.
Qed.

Section sync.
  Set Default Proof Using "Type*".
  Context (C : conf) (w : world) (last : Z) (X : pset).
  Local Notation m := (w_fs w).
  Local Notation ldb := (w_ldb w).
  Local Notation rdb := (w_rdb w).
  Context (H : calm_x C m ldb rdb last X).
  Context (Hit : ∀ l, c_iter C l ≡ₚ l) (Hrows : ∀ l, c_rows C l ≡ₚ l).
  Context (Hvl : v_ldb w = ldb) (Hvr : v_rdb w = rdb) (Hfresh : FMProofs.fresh w) (Hlast : w_last w = Some last).
  Local Notation L := (c_L C).
  Local Notation R := (c_R C).
  Local Notation l_at := (l_at C m).
  Local Notation r_at := (r_at C m).
  Local Notation known := (known ldb).
  Local Notation stray := (stray C m ldb X).
  Local Notation merged := (merged C m ldb last X).
  Local Notation new_l := (new_l C m ldb X).
  Local Notation gone_l := (gone_l C m ldb).
  Local Notation gone_r := (gone_r C m ldb).
  Local Notation edited_l := (edited_l C m ldb last).
  Local Notation edited_r := (edited_r C m ldb rdb last).
  Local Notation trashed := (trashed C m ldb).
  Local Notation m1 := (with_excl C (c_patterns C) m).

  (** What goes to the trash is in its old place or there. *)
  Definition tsafe (m' : fs) : Prop :=
    (∀ d, c_cleanup C = Some d → (0 <= d)%Z) → ∀ p x s c t, trashed p → list.last p = Some x → r_at (p ++ s) = Some (File c t) →
    m' !! (R ++ p ++ s) = Some (File c t) ∨ ∃ t', m' !! (trash_dir C ++ x :: s) = Some (File c t').
  (** Nothing of value is lost. *)
  Record intact (m' : fs) : Prop := {
    it_out : ∀ k, ¬ below k L → ¬ below k R → m' !! k = m !! k;
    it_stray : ∀ p, stray p → m' !! (L ++ p) = l_at p;
    it_kept : ∀ p c t, merged p = Some (File c t) → m' !! (R ++ p) = Some (File c t) ∨ m' !! (L ++ p) = Some (File c t);
    it_trash : tsafe m'
  }.
  (** The stored data of the program is as before. *)
  Definition stored (w' : world) : Prop := w_ldb w' = ldb ∧ w_rdb w' = rdb ∧ w_last w' = w_last w.
  (** What the command has seen. *)
  Definition seen (w' : world) : Prop :=
    v_lscan w' = tree m L ∧ v_rscan w' = tree m1 R ∧ v_excl w' = Some X.
  (** The program's own directory is in order. *)
  Record utl (m' : fs) : Prop := {
    ul_ok : util_ok C m';
    ul_trash : dir_at m' (trash_dir C);
    ul_links : ∀ x t k, m' !! (trash_dir C ++ [x]) ≠ Some (Link t k);
    ul_rest : ∀ k, util_dir C `prefix_of` k → ¬ trash_dir C `prefix_of` k → m' !! k = m1 !! k
  }.
  (** The paths [GL] and [GR] of the two directories are gone. *)
  Record less (GL GR : path → Prop) (m' : fs) : Prop := {
    ls_wf : wf_fs m';
    ls_out : ∀ k, ¬ below k L → ¬ below k R → m' !! k = m !! k;
    ls_l : ∀ q, q ≠ [] → (GL q → m' !! (L ++ q) = None) ∧ (¬ GL q → m' !! (L ++ q) = l_at q);
    ls_r : ∀ q, q ≠ [] → ¬ zielen_dir `prefix_of` q → (GR q → m' !! (R ++ q) = None) ∧ (¬ GR q → m' !! (R ++ q) = r_at q);
    ls_util : utl m'
  }.
  (** Part of these paths are gone. *)
  Record lessing (GL GR : path → Prop) (m' : fs) : Prop := {
    lg_out : ∀ k, ¬ below k L → ¬ below k R → m' !! k = m !! k;
    lg_l : ∀ q, q ≠ [] → ¬ GL q → m' !! (L ++ q) = l_at q;
    lg_r : ∀ q, q ≠ [] → ¬ zielen_dir `prefix_of` q → ¬ GR q → m' !! (R ++ q) = r_at q
  }.
  Definition cutting (m' : fs) : Prop := lessing gone_r gone_l m' ∧ tsafe m'.
  Lemma stray_not_gone p : stray p → ¬ gone_r p.
  Proof. intros (_ & Hk & _) [? _]. done. Qed.
  Lemma tsafe_r m' : (∀ p s n, trashed p → p ++ s ≠ [] → ¬ zielen_dir `prefix_of` p ++ s → r_at (p ++ s) = Some n → m' !! (R ++ p ++ s) = Some n) → tsafe m'.
  Proof. intros Hr _ p x s c t Hp _ E. left. pose proof E as (Hz & Hp0 & _)%r_at_some. by apply Hr. Qed.
  Lemma lessing_intact m' : lessing gone_r gone_l m' → tsafe m' → intact m'.
  Proof.
    intros [Ho Hl Hr] Hts. split; [done|..|done].
    - intros p Hs. apply Hl; [|by apply stray_not_gone]. destruct Hs as ([n Hn] & _). by apply l_at_some in Hn as [? _].
    - intros p c t Hm. destruct (merged_ours _ _ _ _ _ _ H _ _ Hm) as (Hp & _ & Hz).
      assert (Hgl : ¬ gone_l p). { intros Hg. rewrite (merged_gone _ _ _ _ _ _ H) in Hm; [done|by left]. }
      assert (Hgr : ¬ gone_r p). { intros Hg. rewrite (merged_gone _ _ _ _ _ _ H) in Hm; [done|by right]. }
      destruct (merged_inv _ _ _ _ _ _ H _ _ Hm) as [(_ & _ & E)|[(_ & _ & E)|(_ & _ & E)]].
      + right. rewrite <-E. by apply Hl.
      + right. rewrite <-E. by apply Hl.
      + left. rewrite <-E. by apply Hr.
  Qed.

  (** ** Paths *)
  Lemma HR0 : R ≠ [].
  Proof. intros E. apply (cl_apart _ _ _ _ _ _ H). rewrite E. apply prefix_nil. Qed.
  Lemma HL0 : L ≠ [].
  Proof. exact (mo_Lne _ _ (cl_mounted _ _ _ _ _ _ H)). Qed.
  Lemma LR_ne p q : L ++ p ≠ R ++ q.
  Proof. by apply apart_ne, (cl_apart _ _ _ _ _ _ H). Qed.
  Lemma util_not_L p : ¬ util_dir C `prefix_of` L ++ p.
  Proof. intros [k E]. unfold util_dir in E. rewrite <-app_assoc in E. by apply LR_ne in E. Qed.
  Lemma util_not_R p : ¬ zielen_dir `prefix_of` p → ¬ util_dir C `prefix_of` R ++ p.
  Proof. intros Hz Hp. apply Hz. unfold util_dir in Hp. by apply prefix_app_inv in Hp. Qed.
  Lemma util_out k : ¬ below k R → ¬ util_dir C `prefix_of` k.
  Proof.
    intros Hk [s ->]. apply Hk. unfold util_dir. rewrite <-app_assoc. by apply below_app_ne.
  Qed.

  (** ** Finding the changes *)
  Lemma m1_other k : ¬ util_dir C `prefix_of` k → m1 !! k = m !! k.
  Proof. apply with_excl_other. Qed.
  Lemma ltree_m1 : tree m1 L = tree m L.
  Proof.
    apply map_eq. intros p. apply option_eq. intros n. rewrite !tree_lookup. by rewrite m1_other by apply util_not_L.
  Qed.
  Lemma rtree_m1 p : hide_util (tree m1 R) !! p = r_at p.
  Proof.
    apply option_eq. intros n. rewrite hide_util_lookup, tree_lookup, r_at_some.
    split.
    - intros [[Hp Hn] Hz]. rewrite m1_other in Hn by by apply util_not_R. done.
    - intros (Hp & Hz & Hn). rewrite m1_other by by apply util_not_R. done.
  Qed.
  Lemma m1_mounted : mounted C m1.
  Proof. apply with_excl_mounted; [apply (cl_util _ _ _ _ _ _ H)|apply (cl_mounted _ _ _ _ _ _ H)]. Qed.
  Lemma m1_less : less (λ _, False) (λ _, False) m1.
  Proof.
    pose proof (cl_mounted _ _ _ _ _ _ H) as Hm. pose proof (cl_util _ _ _ _ _ _ H) as Hu. pose proof (mo_wf _ _ Hm) as Hwf.
    split.
    - apply m1_mounted.
    - intros k _ Hk. apply m1_other. by apply util_out.
    - intros q Hq. split; [done|]. intros _. rewrite l_at_ne by done. apply m1_other, util_not_L.
    - intros q Hq Hz. split; [done|]. intros _. rewrite r_at_ne by done. by apply m1_other, util_not_R.
    - assert (Hne : ∀ s, exclude_file C ≠ trash_dir C ++ s).
      { intros s E. unfold exclude_file, exclude_dir, trash_dir in E. rewrite <-!app_assoc in E. apply app_inv_head in E. by injection E. }
      split; [by apply with_excl_util|..].
      + apply with_excl_dir; [..|apply (cl_trash _ _ _ _ _ _ H)]; done.
      + intros x t k. unfold with_excl. rewrite lookup_insert_ne by apply Hne. apply (cl_trash_links _ _ _ _ _ _ H).
      + done.
  Qed.
  Lemma less_lessing (GL GR GL' GR' : path → Prop) m' : less GL GR m' → (∀ q, GL q → GL' q) → (∀ q, GR q → GR' q) → lessing GL' GR' m'.
  Proof.
    intros [Hwf Ho Hl Hr _] H1 H2. split; [done|..].
    - intros q Hq Hg. apply Hl; [done|]. naive_solver.
    - intros q Hq Hz Hg. apply Hr; [done..|]. naive_solver.
  Qed.
  Lemma excl_cutting i : cutting (with_excl C (take i (c_patterns C)) m).
  Proof.
    split; [split|].
    - intros k _ Hk. apply with_excl_other. by apply util_out.
    - intros q Hq _. rewrite l_at_ne by done. apply with_excl_other, util_not_L.
    - intros q Hq Hz _. rewrite r_at_ne by done. by apply with_excl_other, util_not_R.
    - apply tsafe_r. intros p s n _ Hp Hz. rewrite r_at_ne by done. intros <-. by apply with_excl_other, util_not_R.
  Qed.
  Lemma safe_m1 p : safe_entry m1 L p ↔ safe_entry m L p.
  Proof. unfold safe_entry. by rewrite m1_other by apply util_not_L. Qed.

  (** The kind of a path of the last sync or a new path. *)
  Definition kind (p : path) : option bool :=
    match ldb !! p with Some d => Some (ld_dir d) | None => is_Dir <$> merged p end.
  Lemma kind_merged p n : merged p = Some n → kind p = Some (is_Dir n).
  Proof.
    intros Hm. unfold kind. destruct (ldb !! p) as [d|] eqn:E; [|by rewrite Hm].
    by rewrite (merged_kind_known _ _ _ _ _ _ H _ _ _ E Hm).
  Qed.
  Definition top (P : path → Prop) (p : path) : Prop := P p ∧ ∀ q, P q → ¬ below p q.
  Record found (a b dl dr tr a' b' : pset) : Prop := {
    fo_a : ∀ p, p ∈ a ↔ new_l p;
    fo_b : ∀ p, p ∈ b ↔ ¬ known p ∧ is_Some (r_at p);
    fo_dl : ∀ p, p ∈ dl ↔ top gone_r p;
    fo_tr : ∀ p, p ∈ tr ↔ top gone_l p ∧ c_trash C = true ∧ ∃ d, ldb !! p = Some d ∧ ld_local d = false;
    fo_dr : ∀ p, p ∈ dr ↔ top gone_l p ∧ ¬ (c_trash C = true ∧ ∃ d, ldb !! p = Some d ∧ ld_local d = false);
    fo_a' : ∀ p, p ∈ a' ↔ edited_l p;
    fo_b' : ∀ p, p ∈ b' ↔ edited_r p
  }.
  Lemma local_entry_m1 w1 p : w_fs w1 = m1 → (∃ n, local_entry C w1 p n) ↔ is_Some (l_at p).
  Proof.
    intros E. unfold local_entry. rewrite E. unfold is_Some. setoid_rewrite l_at_some. by rewrite m1_other by apply util_not_L.
  Qed.
  Lemma remote_entry_m1 w1 p n : w_fs w1 = m1 → remote_entry C w1 p n ↔ r_at p = Some n.
  Proof.
    intros E. unfold remote_entry. rewrite E, <-rtree_m1, hide_util_lookup, tree_lookup. naive_solver.
  Qed.
  Definition w1 : world := set_fs m1 w.
  Definition w2 : world := set_rscan (tree m1 R) (set_excl (Some X) (set_lscan (tree m1 L) w1)).
  Lemma w2_seen : seen w2.
  Proof. unfold seen, w2. cbn. by rewrite ltree_m1. Qed.
  (** The excluded paths. *)
  Definition globbed : Prop := X = c_glob C (c_patterns C) m1 L.
  Lemma w2_current : globbed → current C w2.
  Proof. intros HX. split; [by right|by right|]. right. cbn. by rewrite <-HX. Qed.
  Lemma found_run : globbed → ∃ a b dl dr tr a' b', found a b dl dr tr a' b'
    ∧ compute_added C (set_rscan (tree m1 R) (set_lscan (tree m1 L) w1)) = ([], w2, Ok (a, b))
    ∧ compute_deleted C w2 = ([], w2, Ok (dl, dr, tr))
    ∧ compute_modified C w2 = ([], w2, Ok (a', b')).
  Proof.
    intros HX. pose proof (w2_current HX) as w2_current. pose proof m1_mounted as Hm.
    assert (Hc0 : current C w1) by (by apply fresh_current).
    assert (Hc : current C (set_rscan (tree m1 R) (set_lscan (tree m1 L) w1))).
    { apply (current_rscan C (set_lscan (tree m1 L) w1)), (current_lscan C w1), Hc0. }
    destruct (C24_added C (set_rscan (tree m1 R) (set_lscan (tree m1 L) w1)) Hm Hc) as (wa & a & b & Ea & _ & Ha & Hb).
    assert (Hdel : ∀ p, is_Some (v_ldb w2 !! p) ∧ ¬ (∃ n, local_entry C w2 p n) ↔ gone_l p).
    { intros p. rewrite local_entry_m1 by done. cbn. rewrite Hvl. unfold Merge.gone_l. by rewrite eq_None_not_Some. }
    assert (Hder : ∀ p, is_Some (v_ldb w2 !! p) ∧ ¬ (∃ n, remote_entry C w2 p n) ↔ gone_r p).
    { intros p. setoid_rewrite remote_entry_m1; [|done]. cbn. rewrite Hvl. unfold Merge.gone_r. by rewrite eq_None_not_Some. }
    destruct (C25_deleted C w2 Hm w2_current) as (wd & dl & dr & tr & Ed & _ & Hdl & Htr & Hdr).
    { intros p Hp%Hdel. cbn. rewrite Hvr. by apply (cl_deleted _ _ _ _ _ _ H). }
    destruct (C26_modified C w2 last Hm w2_current) as (wm & a' & b' & Em & _ & Ha' & Hb'); [done|].
    exists a, b, dl, dr, tr, a', b'. split; [|split; [|split]].
    - split.
      + intros p. rewrite Ha, local_entry_m1 by done. cbn. rewrite Hvl, safe_m1, <-HX. unfold Merge.new_l, Merge.stray, Merge.known.
        rewrite <-eq_None_not_Some. split.
        * intros (Hp & Hk & Hs & He). split; [done|]. split; [done|]. intros (_ & _ & [?|?]); done.
        * intros (Hp & Hk & Hs). split; [done|]. split; [done|].
          destruct (decide (safe_entry m L p)); [|destruct Hs; auto]. split; [done|]. intros HpX. apply Hs. auto.
      + intros p. rewrite Hb. setoid_rewrite remote_entry_m1; [|done]. cbn. rewrite Hvl. unfold Merge.known. rewrite eq_None_not_Some.
        unfold is_Some. naive_solver.
      + intros p. rewrite Hdl. unfold top. setoid_rewrite Hder. done.
      + intros p. rewrite Htr. unfold top. setoid_rewrite Hdel. cbn. by rewrite Hvl.
      + intros p. rewrite Hdr. unfold top. setoid_rewrite Hdel. cbn. by rewrite Hvl.
      + intros p. rewrite Ha'. unfold Merge.edited_l. cbn. rewrite Hvl. unfold local_entry. cbn.
        split.
        * intros (Hk & n & (Hp & Hn) & Hd & Ht & Hs). split; [done|]. rewrite m1_other in Hn by apply util_not_L.
          rewrite safe_m1 in Hs. destruct n as [c t|t k|]; [| |done].
          -- exists c, t. split; [by apply l_at_some|done].
          -- exfalso. destruct (cl_link_l _ _ _ _ _ _ H p t k) as [[_ ->]|Hst]; [by apply l_at_some| |by destruct Hst as (_ & ? & _)].
             destruct (Hs _ _ Hn) as [Habs _]. done.
        * intros (Hk & c & t & [Hp Hn]%l_at_some & Ht). split; [done|]. exists (File c t).
          rewrite m1_other by apply util_not_L. split; [done|]. split; [done|]. split; [done|]. rewrite safe_m1.
          intros ? ? E. congruence.
      + intros p. rewrite Hb'. unfold Merge.edited_r. cbn. rewrite Hvl, Hvr. setoid_rewrite remote_entry_m1; [|done].
        apply or_iff_compat_r. split.
        * intros (Hk & n & Hn & Hd & Ht). split; [done|]. destruct n as [c t|t k|]; [by eauto| |done].
          by apply (cl_link_r _ _ _ _ _ _ H) in Hn.
        * intros (Hk & c & t & Hn & Ht). split; [done|]. by exists (File c t).
    - pose proof (compute_added_run C (set_rscan (tree m1 R) (set_lscan (tree m1 L) w1)) Hm Hc) as E. rewrite Ea in E.
      assert (wa = w2) as Hw; [|by rewrite Hw in Ea]. apply (f_equal (λ x, x.1.2)) in E. cbn [fst snd] in E. rewrite E.
      unfold seen3, w2. cbn. by rewrite HX.
    - pose proof (compute_deleted_run C w2 Hm w2_current _ eq_refl) as E. rewrite Ed in E.
      assert (wd = w2) as Hw; [|by rewrite Hw in Ed]. apply (f_equal (λ x, x.1.2)) in E. cbn [fst snd] in E. rewrite E. done.
    - pose proof (compute_modified_run C w2 Hm w2_current last Hlast) as E. rewrite Em in E.
      assert (wm = w2) as Hw; [|by rewrite Hw in Em]. apply (f_equal (λ x, x.1.2)) in E. cbn [fst snd] in E. rewrite E. done.
  Qed.

  (** The databases: [K] is the kind of every path. *)
  (** The row of a file: that of the last sync, or a new one. *)
  Definition lrow (p : path) (x : ldata) : Prop :=
    match ldb !! p with
    | Some x0 => x = x0
    | None => ld_local x = true ∧ (c_inflate C = true → new_l p → sl_max ldb = Some (ld_prio x))
              ∧ (¬ (c_inflate C = true ∧ new_l p) → ld_prio x = 0%Qc)
    end.
  Definition lrows (db : lmap) : Prop := ∀ p x, db !! p = Some x → ld_dir x = false → lrow p x.
  Definition lkind (K : path → option bool) (w' : world) : Prop := (∀ p, ld_dir <$> v_ldb w' !! p = K p) ∧ lrows (v_ldb w').
  Definition rkind (K : path → option bool) (w' : world) : Prop :=
    (∀ p, rd_dir <$> v_rdb w' !! p = K p ∨ (rd_dir <$> v_rdb w' !! p = None ∧ gone_r p)) ∧ since (c_now C) (λ _, False) rdb (v_rdb w').

  Lemma dir_paths_spec (n0 : bool) (p : path) (n : node) (ls rs : nmap) : merged p = Some n → ls = tree m1 L → rs = hide_util (tree m1 R) →
    p ∈ dom (filter (λ kv : path * node, is_Dir kv.2 = n0) ls) ∪ dom (filter (λ kv : path * node, is_Dir kv.2 = n0) rs) ↔ is_Dir n = n0.
  Proof.
    intros Hm -> ->. rewrite elem_of_union, (elem_of_dom (filter _ (tree m1 L))), (elem_of_dom (filter _ (hide_util _))). unfold is_Some.
    setoid_rewrite map_filter_lookup_Some. cbn [snd]. setoid_rewrite rtree_m1. rewrite ltree_m1, <-l_at_tree. split.
    - intros [(n' & Hn' & <-)|(n' & Hn' & <-)].
      + by apply (merged_kind_l _ _ _ _ _ _ H _ _ _ Hm).
      + by apply (merged_kind_at _ _ _ _ _ _ H _ _ _ Hm).
    - intros Hn. destruct (merged_inv _ _ _ _ _ _ H _ _ Hm) as [(_ & _ & E)|[(_ & _ & E)|(_ & _ & E)]]; eauto.
  Qed.
  Definition act (w' : world) : Prop := cutting (w_fs w') ∧ stored w'.
  Lemma kind_ldb p b : ld_dir <$> ldb !! p = Some b → kind p = Some b.
  Proof. unfold kind. by destruct (ldb !! p). Qed.
  Lemma kind_rdb p b : rd_dir <$> rdb !! p = Some b → kind p = Some b.
  Proof.
    intros Hb. unfold kind. destruct (rdb !! p) as [d|] eqn:E; [|done]. injection Hb as Hb. destruct (ldb !! p) as [d'|] eqn:E'.
    - f_equal. rewrite <-Hb. apply (cl_kind _ _ _ _ _ _ H p); cbn; [by rewrite E'|by rewrite E].
    - assert (Hk : ¬ known p) by (intros [? ?]; congruence).
      destruct (cl_unlisted _ _ _ _ _ _ H p) as [?|Hr]; [by eexists|done|].
      destruct (proj2 (merged_unknown _ _ _ _ _ _ H _ Hk) (or_intror Hr)) as [n Hn]. rewrite Hn. cbn. f_equal.
      by rewrite (merged_kind_r _ _ _ _ _ _ H _ _ _ E Hn).
  Qed.
  Lemma kind_rows : rows kind.
  Proof.
    intros p b. unfold kind at 1. destruct (ldb !! p) as [d|] eqn:Ed.
    - intros [= <-]. destruct (cl_rows_l _ _ _ _ _ _ H p (ld_dir d)) as [Ho Hp]; [by rewrite Ed|]. split; [done|].
      destruct Hp as [?|Hp]; [by left|right]. by apply kind_ldb.
    - intros (n & Hn & ->)%fmap_Some. split; [by apply (merged_ours _ _ _ _ _ _ H _ n)|].
      destruct (merged_parent _ _ _ _ _ _ H _ _ Hn) as [?|[t Ht]]; [by left|right]. by rewrite (kind_merged _ _ Ht).
  Qed.
  Lemma kind_over p r b : kind r = Some b → below r p → kind p ≠ Some false.
  Proof.
    intros Hr (x & l & ->) Hp. assert (p ≠ []) as Hp0. { apply kind_rows in Hp as [Ho _]. apply Ho. }
    enough (kind p = Some true) by congruence. clear Hp. revert b Hr. induction l as [|y l IH] using rev_ind; intros b Hr.
    - apply kind_rows in Hr as [_ [Hr|Hr]]; rewrite parent_snoc in Hr; [by destruct p|done].
    - apply kind_rows in Hr as [_ Hr]. rewrite app_comm_cons, (app_assoc p), parent_snoc in Hr. destruct Hr as [Hr|Hr]; [by destruct p|]. by eapply IH.
  Qed.
  Lemma lrows_rm (db : lmap) K ps : (∀ p, ld_dir <$> db !! p = K p) → (∀ p b, K p = Some b → kind p = Some b) →
    (∀ r, r ∈ ps → is_Some (kind r)) → lrows db → lrows (sl_rm db ps).
  Proof.
    intros HK Hk Hps Hro p x Hx Hxd. pose proof (sl_rm_kind db ps p) as E. rewrite Hx in E. case_decide; [done|].
    apply sl_rm_file in Hx; [by apply Hro|]. intros (r & Hr & Hb). destruct (Hps r Hr) as [b Eb]. apply (kind_over _ _ _ Eb Hb). apply Hk.
    rewrite <-HK, <-E. cbn. by rewrite Hxd.
  Qed.
  Lemma detect_wp (Q : res _ → world → Prop) : globbed →
    (∀ w' a b dl dr tr a' b', found a b dl dr tr a' b' → w_fs w' = m1 → stored w' → seen w' → lkind kind w' → rkind kind w' →
      Q (Ok ((a, b), (dl, dr, tr), (a', b'))) w') → wp (sync_detect C) act Q w.
  Proof.
    intros HX HQ. pose proof m1_mounted as Hm. unfold sync_detect.
    apply wp_bind. eapply wp_run; [unfold last_sync, eval; rewrite Hlast; reflexivity|done|]. cbn beta iota.
    apply wp_bind. apply add_exclude_wp; [apply (cl_mounted _ _ _ _ _ _ H)|apply (cl_util _ _ _ _ _ _ H)| |].
    { intros i. split; [apply excl_cutting|done]. }
    fold w1. assert (Hc0 : current C w1) by (by apply fresh_current).
    apply wp_bind. eapply wp_run; [apply (local_scan_run C w1 Hm true); done|done|]. cbn beta iota.
    apply wp_bind. eapply wp_run; [apply (remote_scan_run C (set_lscan (tree m1 L) w1) Hm true); intros _; apply (current_lscan C w1), Hc0|done|]. cbn beta iota.
    destruct (found_run HX) as (a & b & dl & dr & tr & a' & b' & Hf & Ea & Ed & Em).
    apply wp_bind. eapply wp_run; [exact Ea|done|]. cbn beta iota.
    apply wp_bind. eapply wp_run; [exact Ed|done|]. cbn beta iota.
    apply wp_bind. eapply wp_run; [exact Em|done|]. cbn beta iota. cbn [fst snd].
    change (w_fs (set_lscan (tree m1 L) w1)) with m1. change (w_fs w1) with m1.
    set (fp := dom (no_dirs (tree m1 L)) ∪ dom (no_dirs (hide_util (tree m1 R)))).
    set (dp := dom (only_dirs (tree m1 L)) ∪ dom (only_dirs (hide_util (tree m1 R)))).
    assert (Hab : ∀ p, p ∈ a ∪ b → ∃ n, merged p = Some n).
    { intros p [Hp|Hp]%elem_of_union.
      - apply (fo_a _ _ _ _ _ _ _ Hf) in Hp. apply (merged_unknown _ _ _ _ _ _ H); [apply Hp|by left].
      - apply (fo_b _ _ _ _ _ _ _ Hf) in Hp as [Hk Hp]. apply (merged_unknown _ _ _ _ _ _ H); [done|by right]. }
    assert (Hfp : ∀ p n, merged p = Some n → p ∈ fp ↔ is_Dir n = false).
    { intros p n Hn. exact (dir_paths_spec false p n _ _ Hn eq_refl eq_refl). }
    assert (Hdp : ∀ p n, merged p = Some n → p ∈ dp ↔ is_Dir n = true).
    { intros p n Hn. exact (dir_paths_spec true p n _ _ Hn eq_refl eq_refl). }
    assert (Hfd : ∀ p, p ∈ ((a ∪ b) ∖ dp) ∪ ((a ∪ b) ∖ fp) ↔ p ∈ a ∪ b).
    { intros p. split; [set_solver|]. intros Hp. destruct (Hab _ Hp) as [n Hn]. pose proof (Hfp _ _ Hn). pose proof (Hdp _ _ Hn).
      destruct (is_Dir n) eqn:E; rewrite elem_of_union, !elem_of_difference; naive_solver. }
    apply wp_bind. apply (add_both_wp C act _ w2 _ _ _ _ kind); [done|..].
    - intros Hi He. apply set_choose_L in He as [p0 Hp0].
      destruct (cl_inflate _ _ _ _ _ _ H Hi) as (p & Hp & _).
      { exists p0. apply (fo_a _ _ _ _ _ _ _ Hf). set_solver. }
      exists p. cbn [v_ldb w2 w1 set_rscan set_lscan set_excl set_fs]. rewrite Hvl. exact Hp.
    - set_solver.
    - set_solver.
    - set_solver.
    - intros p k [Hk|Hk]; cbn [v_ldb v_rdb w2 w1 set_rscan set_lscan set_excl set_fs] in Hk.
      + rewrite Hvl in Hk. by apply kind_ldb.
      + rewrite Hvr in Hk. by apply kind_rdb.
    - intros p Hp _. apply Hfd in Hp. destruct (Hab _ Hp) as [n Hn]. rewrite (kind_merged _ _ Hn). f_equal.
      apply eq_bool_prop_intro. rewrite bool_decide_spec, elem_of_difference, (Hfp _ _ Hn). destruct (is_Dir n); cbn; naive_solver.
    - intros p Hp. apply Hfd in Hp. destruct (Hab _ Hp) as [n Hn].
      destruct (merged_parent _ _ _ _ _ _ H _ _ Hn) as [?|[t Ht]]; [by left|right]. by rewrite (kind_merged _ _ Ht).
    - intros p r Hr%Hfd. destruct (Hab _ Hr) as [n Hn]. eapply kind_over. by apply kind_merged.
    - intros l r Hl Hr Hro Hs. apply wp_ret. apply HQ; [done|done|done|apply w2_seen|..].
      + cbn [v_ldb w2 w1 set_rscan set_lscan set_excl set_fs] in Hro. rewrite Hvl in Hro. split.
        2: { intros p x Hx Hxd. cbn [v_ldb set_vldb set_vrdb] in Hx. unfold lrow. destruct (Hro p x Hx Hxd) as [->|(-> & Hxl & Hxi & Hxn)]; [done|].
          assert (p ∈ a ∖ dp ∪ a ∖ fp ↔ new_l p) as Hnl.
          { rewrite <-(fo_a _ _ _ _ _ _ _ Hf). split; [set_solver|]. intros Hp. destruct (Hab p) as [n Hn]; [set_solver|].
            pose proof (Hfp _ _ Hn). pose proof (Hdp _ _ Hn). destruct (is_Dir n) eqn:E; rewrite elem_of_union, !elem_of_difference; naive_solver. }
          rewrite Hnl in Hxi, Hxn. done. }
        intros p. cbn [v_ldb set_vldb]. rewrite Hl. cbn [v_ldb w2 w1 set_rscan set_lscan set_excl set_fs]. rewrite Hvl.
        case_decide as Hdec; [done|]. rewrite Hfd in Hdec. unfold kind.
        destruct (ldb !! p) as [d|] eqn:E; [destruct Hdec; right; by eexists|].
        destruct (merged p) as [n|] eqn:En; [|done]. exfalso. apply Hdec. left.
        assert (Hk : ¬ known p) by (intros [? ?]; congruence).
        destruct (proj1 (merged_unknown _ _ _ _ _ _ H _ Hk)) as [?|?]; [by eexists|..]; apply elem_of_union; [left|right].
        * by apply (fo_a _ _ _ _ _ _ _ Hf).
        * by apply (fo_b _ _ _ _ _ _ _ Hf).
      + split; [|cbn [v_rdb set_vldb set_vrdb]; cbn [v_rdb w2 w1 set_rscan set_lscan set_excl set_fs] in Hs; by rewrite Hvr in Hs].
        intros p. cbn [v_rdb set_vldb set_vrdb]. rewrite Hr. cbn [v_rdb w2 w1 set_rscan set_lscan set_excl set_fs]. rewrite Hvr.
        case_decide as Hdec; [by left|]. rewrite Hfd in Hdec. destruct (decide (known p)) as [Hk|Hk].
        * right. split; [done|]. split; [done|]. destruct (r_at p) as [n|] eqn:E; [|done]. destruct Hdec. right.
          apply (cl_listed _ _ _ _ _ _ H); [done|by rewrite E].
        * left. unfold kind. destruct (ldb !! p) as [d|] eqn:E; [destruct Hk; by eexists|].
          destruct (merged p) as [n|] eqn:En; [|done]. exfalso. apply Hdec. left.
          destruct (proj1 (merged_unknown _ _ _ _ _ _ H _ Hk)) as [?|?]; [by eexists|..]; apply elem_of_union; [left|right].
          -- by apply (fo_a _ _ _ _ _ _ _ Hf).
          -- by apply (fo_b _ _ _ _ _ _ _ Hf).
  Qed.
End sync.
