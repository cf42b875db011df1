(** C60: excluded files leave the remote directory by agreement
    (userdata.py 212-236, filelogic.py 795-807). *)
From Coq Require Import QArith Qcanon.
From Verif Require Import ExcludeProofs SyncEx.
From stdpp Require Import options.

(** C60 Whatever the step that removes excluded files changes, at any instant
    and also if it fails, is at or below a path that the patterns of every
    client match.  Partial: about this step; not about a whole sync, where
    a file can also go because the user deleted it. *)
Theorem C60_agreement_partial C w paths :
  wf_fs (w_fs w) → dir_at (w_fs w) (exclude_dir C) → c_R C ≠ [] → valid_comps (c_R C) → (∀ l, c_iter C l ≡ₚ l) →
  (∀ p, p ∈ paths → valid_comps p ∧ dirs_ok (w_fs w) (parent (c_R C ++ p))) →
  let '(tr, w', r) := rm_excluded_files C paths w in
  ∀ w1 k, w1 ∈ w' :: tr → w_fs w1 !! k ≠ w_fs w !! k →
    ∃ p, p ∈ paths ∧ c_R C ++ p `prefix_of` k ∧ agreed C (w_fs w) p.
Proof.
  intros Hwf Hex HR HRv Hit Hp. destruct (rm_excluded_files C paths w) as [[tr w'] r] eqn:E.
  set (P := λ w1, ∀ k, w_fs w1 !! k ≠ w_fs w !! k → ∃ p, p ∈ paths ∧ c_R C ++ p `prefix_of` k ∧ agreed C (w_fs w) p).
  assert (wp (rm_excluded_files C paths) P (λ _ w1, P w1) w) as [H1 H2].
  { unfold rm_excluded_files. apply wp_bind, wp_eval.
    destruct (check_excluded C (w_fs w) paths) as [X|] eqn:Ex; [|by intros k Hk].
    apply wp_bind, wp_get.
    assert (∀ p, p ∈ X → p ∈ paths ∧ agreed C (w_fs w) p) as HX.
    { unfold check_excluded in Ex. destruct (scandir (w_fs w) (exclude_dir C)) as [es|] eqn:Es; [|done].
      destruct (decide (paths = ∅)) as [He|]; [injection Ex as <-; set_solver|].
      destruct (read_all _ _) as [cs|] eqn:Er; [|done]. injection Ex as <-. intros p [Hm Hin]%elem_of_filter. split; [done|].
      intros x c t Hx. rewrite Forall_forall in Hm. apply Hm. eapply read_all_each; [done| |by eapply read_file_at].
      assert (x ∈ map fst es) as Hxe by by eapply scandir_has. apply elem_of_list_fmap in Hxe as ([y n0] & -> & Hy).
      apply elem_of_list_fmap. by exists (y, n0). }
    assert (∀ m', cutting (map (app (c_R C)) (c_iter C (elements (X ∩ dom (v_rdb w))))) (w_fs w) m' → ∀ k, m' !! k ≠ w_fs w !! k →
      ∃ p, p ∈ paths ∧ c_R C ++ p `prefix_of` k ∧ agreed C (w_fs w) p) as HC.
    { intros m' Hc k Hk. destruct (decide (under (map (app (c_R C)) (c_iter C (elements (X ∩ dom (v_rdb w))))) k)) as [(q & Hq & Hpre)|Hn].
      - apply elem_of_list_fmap in Hq as (p & -> & Hin). rewrite Hit in Hin. apply elem_of_elements, elem_of_intersection in Hin as [Hin _].
        destruct (HX p Hin). by exists p.
      - destruct Hk. by eapply cg_rest. }
    unfold rm_remote_files. apply rm_files_wp; [done|done| | |].
    - intros p [Hin _]%elem_of_intersection. destruct (HX p Hin) as [Hin' _]. destruct (Hp p Hin') as [Hv Hok].
      split_and!; [by destruct (c_R C)|by apply valid_app|done].
    - intros m' Hc. exact (HC m' Hc).
    - intros m' Hc. exact (HC m' (cut_cutting _ _ _ Hc)). }
  rewrite E in H1, H2. cbn [fst snd] in H1, H2. intros w1 k [->|Hin]%elem_of_cons Hk; [by apply H2|].
  rewrite Forall_forall in H1. by apply (H1 w1).
Qed.
Print Assumptions C60_agreement_partial.

(** And if every client's patterns can be read, the step succeeds, and
    exactly the known paths that all match are gone, with all below them. *)
Theorem C60_removed_partial C w paths :
  wf_fs (w_fs w) → dir_at (w_fs w) (exclude_dir C) → c_R C ≠ [] → valid_comps (c_R C) → (∀ l, c_iter C l ≡ₚ l) →
  (∀ x n, w_fs w !! (exclude_dir C ++ [x]) = Some n → ∃ c t, n = File c t) →
  (∀ p, p ∈ paths → valid_comps p ∧ dirs_ok (w_fs w) (parent (c_R C ++ p))) →
  let '(_, w', r) := rm_excluded_files C paths w in
  let gone := λ k, ∃ p, p ∈ paths ∧ p ∈ dom (v_rdb w) ∧ agreed C (w_fs w) p ∧ c_R C ++ p `prefix_of` k in
  r = Ok tt ∧ (∀ k, gone k → w_fs w' !! k = None) ∧ (∀ k, ¬ gone k → w_fs w' !! k = w_fs w !! k).
Proof.
  intros Hwf Hex HR HRv Hit Hfiles Hp. destruct (rm_excluded_files C paths w) as [[tr w'] r] eqn:E. intros gone.
  destruct (check_excluded_spec C (w_fs w) paths Hwf Hex Hfiles) as (X & Ex & HX).
  assert (wp (rm_excluded_files C paths) (λ _, True) (λ r w', r = Ok tt ∧ (∀ k, gone k → w_fs w' !! k = None) ∧ (∀ k, ¬ gone k → w_fs w' !! k = w_fs w !! k)) w) as [_ H].
  { unfold rm_excluded_files. apply wp_bind, wp_eval. rewrite Ex. apply wp_bind, wp_get.
    assert (∀ k, under (map (app (c_R C)) (c_iter C (elements (X ∩ dom (v_rdb w))))) k ↔ gone k) as Hu.
    { intros k. unfold under, gone. split.
      - intros (q & Hq & Hpre). apply elem_of_list_fmap in Hq as (p & -> & Hin). rewrite Hit in Hin.
        apply elem_of_elements, elem_of_intersection in Hin as [Hin Hdb]. apply HX in Hin as [??]. by exists p.
      - intros (p & H1 & H2 & H3 & H4). exists (c_R C ++ p). split; [|done]. apply elem_of_list_fmap. exists p. split; [done|].
        rewrite Hit. apply elem_of_elements, elem_of_intersection. split; [by apply HX|done]. }
    unfold rm_remote_files. apply rm_files_wp; [done|done| |done|].
    - intros p [Hin _]%elem_of_intersection. apply HX in Hin as [Hin' _]. destruct (Hp p Hin') as [Hv Hok].
      split_and!; [by destruct (c_R C)|by apply valid_app|done].
    - intros m' [H1 H2 H3]. split; [done|]. split; intros k Hk; [apply H2|apply H3]; by rewrite Hu. }
  by rewrite E in H.
Qed.
Print Assumptions C60_removed_partial.

(** Two clients: both exclude [a], only this one excludes [b]. *)
Definition exP : conf := {|
  c_L := pL; c_R := pR; c_limit := 100000; c_account := true; c_inflate := true; c_trash := true;
  c_cleanup := None; c_id := lit "me"; c_patterns := lit "ab";
  c_glob := λ c _ _, list_to_set (map (λ x, [[x]]) c);
  c_block := 4096; c_blocks := c_blocks exC;
  c_now := 20; c_end := 21; c_dt := ex_dt; c_iter := id; c_rows := id; c_tty := false |}.
Definition fsP : fs := <[exclude_dir exP ++ e "me" := File (lit "ab") 1%Z]> (<[exclude_dir exP ++ e "you" := File (lit "ac") 1%Z]> fsM).
Definition wP : world := world_of fsP ldbM rdbM.
Definition pathsP : pset := list_to_set [e "a"; e "b"].
Definition exclude_check (C : conf) (m : fs) (paths : pset) : Prop :=
  wf_fs m ∧ dir_at m (exclude_dir C) ∧ c_R C ≠ [] ∧ valid_comps (c_R C)
  ∧ map_Forall (λ k n, exclude_dir C `prefix_of` k → k ≠ exclude_dir C → match n with File _ _ => True | _ => False end) m
  ∧ Forall (λ p, valid_comps p ∧ dir_at m (parent (c_R C ++ p))) (elements paths).
Global Instance exclude_check_dec C m paths : Decision (exclude_check C m paths).
Proof.
  unfold exclude_check. repeat apply and_dec; try apply _. apply map_Forall_dec. intros k n.
  repeat apply impl_dec; try apply _. destruct n; apply _.
Defined.
Example C60_example :
  (wf_fs (w_fs wP) ∧ dir_at (w_fs wP) (exclude_dir exP) ∧ c_R exP ≠ [] ∧ valid_comps (c_R exP) ∧ (∀ l, c_iter exP l ≡ₚ l)
   ∧ (∀ x n, w_fs wP !! (exclude_dir exP ++ [x]) = Some n → ∃ c t, n = File c t)
   ∧ (∀ p, p ∈ pathsP → valid_comps p ∧ dirs_ok (w_fs wP) (parent (c_R exP ++ p))))
  ∧ let '(_, w', r) := rm_excluded_files exP pathsP wP in
    is_ok r && node_is (w_fs w') (pR ++ e "a") None && node_is (w_fs w') (pR ++ e "b") (Some (File (lit "bb") 5%Z)) = true.
Proof.
  split; [|vm_compute; reflexivity].
  assert (exclude_check exP (w_fs wP) pathsP) as (H1 & H2 & H3 & H4 & H5 & H6) by decided.
  split_and!; [done..| |].
  - intros x n Hx. apply (map_Forall_lookup_1 _ _ _ _ H5) in Hx.
    + destruct n; try done; eauto.
    + by apply prefix_app_r.
    + intros E. apply (f_equal length) in E. rewrite app_length in E. simpl in E. lia.
  - intros p Hp. rewrite Forall_forall in H6. destruct (H6 p) as [Hv Hd]; [by apply elem_of_elements|]. split; [done|].
    intros q Hq Hpre. right. by eapply wf_dir_anc.
Qed.
