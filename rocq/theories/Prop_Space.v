(** C96: the space is checked before files are moved. *)
From Coq Require Import QArith Qcanon.
From Verif Require Import Space SelectProofs MergeDown InitProofs ResetProofs SyncEx Prop_Init Prop_Reset.
From stdpp Require Import options.

(** ** Specification *)
(** The sizes of entries are not negative, and the one of a directory does not
    depend on its time. *)
Definition sizes (C : conf) : Prop :=
  (∀ p n, 0 ≤ c_blocks C p n)%Z ∧ ∀ p t t', c_blocks C p (Dir t) = c_blocks C p (Dir t').
(** The space that the entries [T] of the directory [root] take. *)
Definition space (C : conf) (m : fs) (root : path) (T : pset) : Z :=
  set_sum (λ q, default 0%Z (c_blocks C q <$> m !! (root ++ q))) T.

(** ** Lemmas *)
Lemma zsum_perm {A} (f : A → Z) (l k : list A) : l ≡ₚ k → zsum f l = zsum f k.
Proof. unfold zsum. induction 1; simpl; lia. Qed.
Lemma zsum_map {A B} (g : A → B) (f : B → Z) (l : list A) : zsum f (map g l) = zsum (λ x, f (g x)) l.
Proof. unfold zsum. induction l as [|x l IH]; simpl; [done|]. by rewrite IH. Qed.
Lemma dir_usage_sum (C : conf) (s : nmap) : dir_usage C s = set_sum (λ q, default 0%Z (c_blocks C q <$> s !! q)) (dom s).
Proof.
  unfold dir_usage, set_sum. assert (elements (dom s) ≡ₚ map fst (map_to_list s)) as ->%(zsum_perm _ _ _).
  { apply NoDup_Permutation; [apply NoDup_elements|apply NoDup_fst_map_to_list|]. intros q.
    rewrite elem_of_elements, elem_of_dom, elem_of_list_fmap. split.
    - intros [n E]. exists (q, n). split; [done|]. by apply elem_of_map_to_list.
    - intros ([q' n] & -> & E%elem_of_map_to_list). by exists n. }
  rewrite zsum_map. assert (∀ q n, (q, n) ∈ map_to_list s → s !! q = Some n) as H by by intros; apply elem_of_map_to_list.
  revert H. generalize (map_to_list s) as l. unfold zsum. induction l as [|[q n] l IH]; intros H; simpl; [done|].
  rewrite (H q n) by left. cbn. rewrite IH; [done|]. intros; apply H. by right.
Qed.
Lemma tree_eq m m' root : (∀ q, q ≠ [] → m !! (root ++ q) = m' !! (root ++ q)) → tree m root = tree m' root.
Proof.
  intros H. apply map_eq. intros p. apply option_eq. intros n. rewrite !tree_lookup. split; intros [Hp E]; (split; [done|]).
  - by rewrite <-H. 
  - by rewrite H.
Qed.
Lemma bind_quiet {S A B} (m : M S A) (k : A → M S B) s s' a : m s = ([], s', Ok a) → bind m k s = k a s'.
Proof. unfold bind. intros ->. by destruct (k a s') as [[? ?] ?]. Qed.
Lemma init_run C m0 w free : new_dirs C m0 → waiting C m0 (w_last w) w →
  init_free C false free w = init_main C false (bool_decide (dir_usage C (tree (w_fs w) (c_L C)) ≤ free)%Z) w.
Proof.
  intros N [P Ew]. pose proof (start_ok C m0 N) as H0.
  assert (wp (generate C) (λ _, True) (λ r w1, r = Ok tt ∧ mounted C (w_fs w1) ∧ (∃ m', w1 = set_fs m' w) ∧ tree (w_fs w1) (c_L C) = tree (w_fs w) (c_L C)) w) as [_ Hg].
  { eapply wp_trace_mono; [eapply (generate_wp _ _ _ H0); [exact P|]|done]. intros m1 P1 S1 _ _. split; [done|].
    split; [by eapply partway_mounted|]. split; [by eexists|]. apply tree_eq. intros q Hq. apply S1.
    intros Hp. destruct (nd_apart _ _ N) as [Ha1 Ha2]. 
    assert (c_R C `prefix_of` c_L C ++ q) as Hp' by (etrans; [|exact Hp]; by eexists).
    destruct (prefix_weak_total (c_R C) (c_L C) (c_L C ++ q)) as [?|?]; [done|by eexists|by apply Ha2|by apply Ha1]. }
  unfold init_free, init_main, init_files, bind. destruct (generate C w) as [[tr1 w1] r1]. cbn [fst snd] in Hg.
  destruct Hg as (-> & Hm & [m' E1] & Ht). rewrite <-Ht.
  assert (v_lscan w1 = ∅ ∧ v_rscan w1 = ∅ ∧ v_excl w1 = None) as (Hl & Hr & Hx) by (subst w1; by rewrite Ew).
  assert (∀ b, setup_from_local C b (set_lscan (tree (w_fs w1) (c_L C)) w1) = setup_from_local C b w1) as Hs.
  { intros b. assert (current C w1) as Hc by (split; by left). pose proof (current_lscan _ _ Hc) as Hc'.
    unfold setup_from_local. rewrite (bind_quiet _ _ _ _ _ (local_scan_run C w1 Hm true (λ _, Hc))).
    rewrite (bind_quiet _ _ _ _ _ (local_scan_run C (set_lscan (tree (w_fs w1) (c_L C)) w1) Hm true (λ _, Hc'))). done. }
  assert (setup_from_local_free C free w1 = setup_from_local C (bool_decide (dir_usage C (tree (w_fs w1) (c_L C)) ≤ free)%Z) w1) as ->; [|done].
  unfold setup_from_local_free. assert (current C w1) as Hc by (split; by left).
  by rewrite (bind_quiet _ _ _ _ _ (local_scan_run C w1 Hm true (λ _, Hc))).
Qed.

Lemma reset_run C w keep free : mounted C (w_fs w) → v_rscan w = ∅ →
  reset_free C keep false free w = reset_main C keep false (bool_decide (dir_usage C (hide_util (tree (w_fs w) (c_R C))) ≤ free)%Z) w.
Proof.
  intros Hm Hr. unfold reset_free. rewrite (bind_quiet _ _ _ _ _ (remote_scan_known C w Hm (or_introl Hr))).
  set (b := bool_decide _). unfold reset_main.
  assert (∀ A (m m' : M world A) B (k : A → M world B) s s', m s = m' s' → bind m k s = bind m' k s') as Hb.
  { intros A m m' B k s s' E. unfold bind. by rewrite E. }
  apply Hb. unfold retrieve. rewrite (bind_quiet _ _ _ _ _ (remote_scan_known C w Hm (or_introl Hr))).
  rewrite (bind_quiet _ _ _ _ _ (remote_scan_known C (set_rscan (tree (w_fs w) (c_R C)) w) Hm (or_intror eq_refl))). done.
Qed.

(** Only the program's own directory is made before the check. *)
Lemma refused C m0 w : new_dirs C m0 → waiting C m0 (w_last w) w →
  wp (init_main C false false) (λ _, True) (λ r w', ∀ k, ¬ (c_R C ++ zielen_dir) `prefix_of` k → w_fs w' !! k = w_fs w !! k) w.
Proof.
  intros N [P Ew]. pose proof (start_ok C m0 N) as H0. unfold init_main, init_files. apply wp_bind, wp_bind.
  eapply wp_trace_mono; [eapply (generate_wp _ _ _ H0); [exact P|]|done].
  intros m1 P1 S1 D1 T1. cbv beta iota. apply wp_bind. unfold setup_from_local.
  assert (mounted C m1) as Hm by by eapply partway_mounted. assert (current C (set_fs m1 w)) as Hc by (rewrite Ew; split; by left).
  apply wp_bind. eapply wp_run; [exact (local_scan_run C (set_fs m1 w) Hm true (λ _, Hc))|constructor|]. cbv beta iota zeta.
  apply wp_bind, wp_get. apply current_lscan in Hc. cbn [w_fs set_lscan set_fs].
  apply wp_bind. eapply wp_run; [refine (local_scan_run C _ _ true (λ _, Hc)); exact Hm|constructor|]. cbv beta iota zeta.
  cbn [negb]. apply wp_throw. intros k Hk. cbn [w_fs set_lscan set_fs]. by apply S1.
Qed.

(** ** C96 *)

(** Either the initialization succeeds and what is in the remote directory then
    takes no more than the space that was free, or nothing is changed outside
    of the program's own directory because the local directory is larger than
    that.
    Partial: as [C72_init_partial]. *)
Theorem C96_init_partial C m0 t free :
  new_dirs C m0 → names_only C m0 → (∀ l, c_iter C l ≡ₚ l) → c_tty C = false ∨ plain_files C m0 → sizes C →
  let '(_, w', r) := init_free C false free (first m0 t) in
  (r = Ok tt ∧ ∀ T, (∀ q, q ∈ T → q ≠ [] ∧ ¬ zielen_dir `prefix_of` q) → (space C (w_fs w') (c_R C) T ≤ free)%Z)
  ∨ (r = Err AvailableSpaceErr ∧ (∀ k, ¬ (c_R C ++ zielen_dir) `prefix_of` k → w_fs w' !! k = m0 !! k)
     ∧ ∃ T, (∀ q, q ∈ T → q ≠ []) ∧ (free < space C m0 (c_L C) T)%Z).
Proof.
  intros N HG Hit Hp [Hs1 Hs2]. pose proof (start_ok C m0 N) as H0.
  assert (waiting C m0 t (first m0 t)) as W by (split; [by apply partway_start, start_ok|done]).
  rewrite (init_run C m0 (first m0 t) free N W). cbn [w_fs first].
  rewrite dir_usage_sum. set (D := dom (tree m0 (c_L C))).
  assert (set_sum (λ q, default 0%Z (c_blocks C q <$> tree m0 (c_L C) !! q)) D = space C m0 (c_L C) D) as ->.
  { apply set_sum_ext. intros q Hq. apply elem_of_dom in Hq as [n E]. rewrite E. apply tree_lookup in E as [_ ->]. done. }
  assert ((bare C m0 ∧ c_tty C = false) ∨ plain_files C m0) as Hp'.
  { destruct Hp as [?|?]; [left|by right]. split; [by apply bare_start|done]. }
  case_bool_decide as Hf.
  - pose proof (init_fresh C m0 t N HG Hit Hp) as H. destruct (init_main C false true (first m0 t)) as [[tr w'] r].
    destruct H as (-> & Fi & _). left. split; [done|]. intros T HT.
    etrans; [|exact Hf]. unfold space.
    set (f := λ q, default 0%Z (c_blocks C q <$> w_fs w' !! (c_R C ++ q))). set (g := λ q, default 0%Z (c_blocks C q <$> m0 !! (c_L C ++ q))).
    assert (∀ q, 0 ≤ g q)%Z as Hg. { intros q. unfold g. destruct (m0 !! _); [apply Hs1|done]. }
    assert (∀ q, q ∈ T → f q ≤ g q ∧ (q ∉ D → f q = 0))%Z as Hfg.
    { intros q Hq. destruct (HT q Hq) as [Hne Hz]. unfold f. destruct (w_fs w' !! (c_R C ++ q)) as [n|] eqn:E; [|split; [apply Hg|done]].
      destruct (fi_only _ _ _ Fi q n Hne Hz E) as (r & Hr & Hqr & Hd).
      assert (∃ n0, m0 !! (c_L C ++ q) = Some n0 ∧ c_blocks C q n = c_blocks C q n0) as (n0 & E0 & Eb).
      { pose proof Hr as (Hrne & [k Ek] & _). destruct (decide (q = r)) as [<-|Hqn].
        - destruct (is_Dir k) eqn:Hk.
          + destruct k as [| |k]; [done|done|]. assert (dir_at m0 (c_L C ++ q)) as Hda by (apply dir_at_lookup; [by apply app_ne|by eexists]).
            pose proof (fi_dirs _ _ _ Fi q Hr Hda) as Hd'. apply dir_at_lookup in Hd' as [k' Hk']; [|by apply app_ne].
            rewrite E in Hk'. injection Hk' as ->. exists (Dir k). split; [done|apply Hs2].
          + destruct (fi_files _ _ _ Fi q k Hr Ek Hk) as [E' _]. rewrite E in E'. injection E' as ->. by exists k.
        - specialize (Hd Hqn). destruct n as [| |n]; [done|done|].
          assert (dir_at m0 (c_L C ++ q)) as Hda.
          { eapply (wf_anc m0 (nd_wf _ _ N)); [exact Ek|by apply prefix_app|]. intros Eq. by apply app_inv_head in Eq. }
          apply dir_at_lookup in Hda as [k' Hk']; [|by apply app_ne]. exists (Dir k'). split; [done|apply Hs2]. }
      unfold g. rewrite E0. cbn. rewrite Eb. split; [lia|]. intros Hn. destruct Hn. apply elem_of_dom. exists n0. by apply tree_lookup. }
    assert (set_sum f T = set_sum f (T ∩ D) + set_sum f (T ∖ D))%Z as ->.
    { rewrite <-set_sum_union by set_solver. f_equal. apply set_eq. intros q. rewrite elem_of_union, elem_of_intersection, elem_of_difference.
      destruct (decide (q ∈ D)); tauto. }
    assert (set_sum f (T ∖ D) = 0)%Z as ->.
    { rewrite (set_sum_ext f (λ _, 0%Z)); [unfold set_sum, zsum; by induction (elements (T ∖ D))|].
      intros q [Hq1 Hq2]%elem_of_difference. by apply Hfg. }
    rewrite Z.add_0_r. etrans; [apply (set_sum_le f g); intros q [Hq _]%elem_of_intersection; by apply Hfg|].
    apply set_sum_mono; [done|]. set_solver.
  - pose proof (init_main_states C m0 t (first m0 t) false N HG Hit Hp' W) as [_ H]. pose proof (refused C m0 (first m0 t) N W) as [_ H'].
    destruct (init_main C false false (first m0 t)) as [[tr w'] r]. cbn [fst snd] in H. cbn [fst snd] in H'. destruct H as (Hn & -> & _).
    right. split; [done|]. split; [done|]. exists D. split; [|lia].
    intros q [n E]%elem_of_dom. by apply tree_lookup in E as [? _].
Qed.
Print Assumptions C96_init_partial.

(** The files that [reset] retrieves take no more than the space that was free,
    or nothing is changed because those of the remote directory need more.
    Partial: as [C47_reset_partial]. *)
Theorem C96_reset_partial C w keep free :
  in_use C w → in_step C w → plain_links C (w_fs w) → (∀ l, c_iter C l ≡ₚ l) → sizes C →
  let '(_, w', r) := reset_free C keep false free w in
  (r = Ok tt ∧ ∀ T, (∀ q, q ∈ T → user q ∧ ∃ c t, w_fs w !! (c_R C ++ q) = Some (File c t)) → (space C (w_fs w') (c_L C) T ≤ free)%Z)
  ∨ (r = Err AvailableSpaceErr ∧ w_fs w' = w_fs w ∧ w_ldb w' = w_ldb w ∧ w_rdb w' = w_rdb w
     ∧ ∃ T, (∀ q, q ∈ T → user q) ∧ (free < space C (w_fs w) (c_R C) T)%Z).
Proof.
  intros U S Hp Hit [Hs1 Hs2]. pose proof (id_boot _ _ (iu_idle _ _ U)) as Hb.
  assert (mounted C (w_fs w)) as Hm by apply (iu_idle _ _ U).
  assert (v_rscan w = ∅) as Hr by by rewrite <-Hb.
  rewrite (reset_run C w keep free Hm Hr). rewrite dir_usage_sum. set (D := dom (hide_util (tree (w_fs w) (c_R C)))).
  assert (∀ q, q ∈ D ↔ user q ∧ is_Some (w_fs w !! (c_R C ++ q))) as HD.
  { intros q. unfold D. rewrite elem_of_dom. unfold hide_util, is_Some. setoid_rewrite map_filter_lookup_Some. setoid_rewrite tree_lookup. unfold user. naive_solver. }
  assert (set_sum (λ q, default 0%Z (c_blocks C q <$> hide_util (tree (w_fs w) (c_R C)) !! q)) D = space C (w_fs w) (c_R C) D) as ->.
  { apply set_sum_ext. intros q Hq. apply elem_of_dom in Hq as [n E]. rewrite E. unfold hide_util in E. apply map_filter_lookup_Some in E as [E _].
    apply tree_lookup in E as [_ ->]. done. }
  case_bool_decide as Hf.
  - pose proof (C47_reset_partial C w keep U S Hp Hit) as H. destruct (reset_main C keep false true w) as [[tr w'] r].
    destruct H as [-> B]. left. split; [done|]. intros T HT. etrans; [|exact Hf].
    etrans; [|apply (set_sum_mono _ T D)].
    + apply set_sum_le. intros q Hq. destruct (HT q Hq) as (Hu & c & k & E). rewrite (ab_files _ _ _ _ B q c k Hu E), E. done.
    + intros q. destruct (w_fs w !! _); [apply Hs1|done].
    + intros q Hq. destruct (HT q Hq) as (Hu & c & k & E). apply HD. split; [done|by eexists].
  - pose proof (C47_no_space C w keep Hm Hb) as H. destruct (reset_main C keep false false w) as [[tr w'] r].
    destruct H as (-> & _ & E1 & E2 & E3). right. split_and!; try done. exists D. split; [|lia]. intros q Hq. by apply HD.
Qed.
Print Assumptions C96_reset_partial.

(** ** Examples and counterexamples *)
Lemma exC_sizes : sizes exC.
Proof. split; [|done]. intros p [c t|l t|t]; cbn; lia. Qed.
Lemma exP_sizes : sizes exP.
Proof. exact exC_sizes. Qed.

(** Excluded files are counted: the initialization is refused though all that
    would be moved fits. *)
Theorem C96_excluded_refuted : ∃ C m0 t free,
  new_dirs C m0 ∧ names_only C m0 ∧ (∀ l, c_iter C l ≡ₚ l) ∧ plain_files C m0 ∧ sizes C
  ∧ (∀ T, (∀ q, q ∈ T → goes C m0 q) → space C m0 (c_L C) T ≤ free)%Z
  ∧ let '(_, w', r) := init_free C false free (first m0 t) in r = Err AvailableSpaceErr.
Proof.
  exists exP, (tree_of iP), None, 6144%Z.
  split; [apply iP_new|]. split; [apply names_x|]. split; [done|]. split; [apply iP_plain|]. split; [apply exP_sizes|]. split.
  - intros T HT. unfold space. etrans; [apply (set_sum_mono _ T {[e "d"; e "d" ++ e "a"; e "f"]})|].
    + intros q. destruct (tree_of iP !! _) as [n|]; [apply exP_sizes|done].
    + intros q Hq. apply HT in Hq as (Hne & [n E] & Hx & Hs). pose proof E as E'. apply (tree_of_local iP) in E; [|done].
      apply elem_of_list_In in E. simpl in E. destruct E as [E|[E|[E|[E|[E|E]]]]]; try done; injection E as <- <-; try (decided).
      * destruct Hx. decided.
      * by destruct (Hs _ _ E').
    + apply (bool_decide_unpack _). vm_compute. exact I.
  - assert (is_err AvailableSpaceErr (init_free exP false 6144 (first (tree_of iP) None)).2 = true) as H by (vm_compute; reflexivity).
    destruct (init_free _ _ _ _) as [[tr w'] r]. by apply is_err_spec.
Qed.
Print Assumptions C96_excluded_refuted.

(** Files that are in the local directory already are counted: [reset] is
    refused though no file is to be retrieved. *)
Definition rH : world := upd (pL ++ e "b") (File (lit "bb") 5) (upd (pL ++ e "a") (File (lit "aa") 5) exM).
Theorem C96_present_refuted : ∃ C w keep free,
  in_use C w ∧ in_step C w ∧ plain_links C (w_fs w) ∧ (∀ l, c_iter C l ≡ₚ l) ∧ sizes C
  ∧ (∀ q c t, user q → w_fs w !! (c_R C ++ q) = Some (File c t) → w_fs w !! (c_L C ++ q) = Some (File c t))
  ∧ (0 < free)%Z ∧ let '(_, w', r) := reset_free C keep false free w in r = Err AvailableSpaceErr.
Proof.
  exists exC, rH, false, 512%Z.
  split; [in_use_now; apply dirs_ok_b; vm_compute; reflexivity|]. split; [apply in_step_b_spec; vm_compute; reflexivity|].
  split; [apply (plain_links_b_spec exC); vm_compute; reflexivity|]. split; [done|]. split; [apply exC_sizes|]. split.
  - intros q c t Hu E. 
    assert (forallb (λ kn : path * node, if decide (pR `prefix_of` kn.1) then let q := drop (length pR) kn.1 in
      if is_user q then match kn.2 with File c t => node_is (w_fs rH) (pL ++ q) (Some (File c t)) | _ => true end else true else true) (map_to_list (w_fs rH)) = true) as H by (vm_compute; reflexivity).
    rewrite forallb_forall in H. apply elem_of_map_to_list, elem_of_list_In, H in E. cbn [fst snd] in E. rewrite decide_True in E by by apply prefix_app_r.
    change (c_R exC) with pR in E. rewrite drop_app in E. cbv zeta in E. apply is_user_spec in Hu. rewrite Hu in E. by apply bool_decide_eq_true in E.
  - split; [done|]. assert (is_err AvailableSpaceErr (reset_free exC false false 512 rH).2 = true) as H by (vm_compute; reflexivity).
    destruct (reset_free _ _ _ _ _) as [[tr w'] r]. by apply is_err_spec.
Qed.
Print Assumptions C96_present_refuted.

Example C96_ex :
  new_dirs exP (tree_of iP) ∧ names_only exP (tree_of iP) ∧ plain_files exP (tree_of iP) ∧ sizes exP
  ∧ is_ok (init_free exP false 7168 (first (tree_of iP) None)).2 && is_err AvailableSpaceErr (init_free exP false 7167 (first (tree_of iP) None)).2 = true
  ∧ in_use exC rW ∧ in_step exC rW ∧ plain_links exC (w_fs rW) ∧ sizes exC
  ∧ is_ok (reset_free exC false false 10000 rW).2 = true.
Proof.
  split; [apply iP_new|]. split; [apply names_x|]. split; [apply iP_plain|]. split; [apply exP_sizes|]. split; [vm_compute; reflexivity|].
  split; [apply rW_ready|]. split; [apply rW_ready|]. split; [apply rW_ready|]. split; [apply exC_sizes|]. vm_compute. reflexivity.
Qed.
