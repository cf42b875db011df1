(** [symlink_tree]. *)
From Verif Require Export TransferProofs.
From stdpp Require Import options.

Section symlink.
  Context (now : Z) (S D : path) (files dirs : gset path) (ow : bool) (m : fs).

  Definition sl_node (q : path) (old : option node) : option node :=
    if decide (q ∈ dirs) then match old with Some n => Some n | None => Some (Dir now) end
    else match old with
         | Some n => if ow then Some (Link (abs_path (S ++ q)) now) else Some n
         | None => Some (Link (abs_path (S ++ q)) now)
         end.
  (** The requested path does not exist before, or is a link that replaces it. *)
  Definition created (q : path) : Prop := m !! (D ++ q) = None ∨ (ow = true ∧ q ∉ dirs).
  Global Instance created_dec q : Decision (created q).
  Proof. unfold created. apply _. Defined.

  Record linkable : Prop := {
    lk_wf : wf_fs m;
    lk_dest : dir_at m D;
    lk_names : ∀ q, q ∈ dirs ∪ files → q ≠ [] ∧ valid_comps q;
    lk_parents : ∀ q r, q ∈ dirs ∪ files → r `prefix_of` q → r ≠ q → r ≠ [] →
      dir_at m (D ++ r) ∨ (m !! (D ++ r) = None ∧ r ∈ dirs);
    lk_over : ow = true → ∀ q, q ∈ files → q ∉ dirs → ¬ dir_at m (D ++ q)
  }.
  Record linked (X : list path) (m1 : fs) : Prop := {
    li_wf : wf_fs m1;
    li_out : ∀ k, (∀ q, q ∈ X → k ≠ D ++ q) → m1 !! k = m !! k;
    li_in : ∀ q, q ∈ X → m1 !! (D ++ q) = sl_node q (m !! (D ++ q))
  }.
  Context (K : linkable).

  Lemma linked_dir X m1 d : linked X m1 → (∀ q, q ∈ X → q ∈ dirs ∪ files) → dir_at m d → dir_at m1 d.
  Proof using K.
    intros HL HX Hd. destruct (decide (d = [])) as [->|Hne]; [apply dir_at_nil|].
    apply (dir_at_lookup _ _ Hne) in Hd as [t Ht]. apply dir_at_lookup; [done|].
    destruct (decide (Exists (λ q, d = D ++ q) X)) as [He|He].
    - apply Exists_exists in He as (q & Hq & ->). exists t. rewrite (li_in _ _ HL q Hq), Ht. unfold sl_node.
      destruct (decide (q ∈ dirs)); [done|]. destruct ow eqn:Eow; [|done].
      exfalso. apply (lk_over K Eow q); [specialize (HX q Hq); set_solver|done|].
      apply dir_at_lookup; [done|by eexists].
    - exists t. rewrite (li_out _ _ HL); [done|]. intros q Hq ->. apply He, Exists_exists. eauto.
  Qed.

  Lemma link_one_wp (I : fs → Prop) (Q : res bool → fs → Prop) X p m1 :
    linked X m1 → p ∉ X → p ∈ dirs ∪ files → (∀ q, q ∈ X → q ∈ dirs ∪ files) →
    (∀ q, q ∈ dirs ∪ files → length q < length p → q ∈ X) →
    (ow = true → p ∈ files → p ∉ dirs → is_Some (m !! (D ++ p)) → I (delete (D ++ p) m1)) →
    (∀ m2, linked (X ++ [p]) m2 → I m2) →
    (∀ m2, linked (X ++ [p]) m2 → Q (Ok (bool_decide (created p))) m2) →
    wp (link_one now S D files dirs ow p) I Q m1.
  Proof using K.
    intros HL Hp Hpin HX Hdep HId HI HQ. unfold link_one. cbv zeta.
    destruct (lk_names K p Hpin) as [Hne Hv].
    assert (HvD : valid_comps (D ++ p)).
    { apply valid_app. split; [eapply wf_dir_valid; [apply (lk_wf K)|apply (lk_dest K)]|done]. }
    assert (HneD : D ++ p ≠ []) by (by destruct D, p).
    assert (Hold : m1 !! (D ++ p) = m !! (D ++ p)).
    { apply (li_out _ _ HL). intros q Hq E. apply app_inv_head in E. by subst. }
    assert (Hpar : dir_at m1 (parent (D ++ p))).
    { destruct p as [|x p0 _] using rev_ind; [done|]. rewrite app_assoc, parent_snoc.
      destruct (decide (p0 = [])) as [->|Hp0]; [rewrite app_nil_r; exact (linked_dir X m1 D HL HX (lk_dest K))|].
      assert (p0 ≠ p0 ++ [x]) as Hpne.
      { intros E. apply (f_equal length) in E. rewrite app_length in E. simpl in E. lia. }
      assert (p0 `prefix_of` p0 ++ [x]) as Hpre by (by exists [x]).
      destruct (lk_parents K (p0 ++ [x]) p0 Hpin Hpre Hpne Hp0) as [H|[H1 H2]].
      - by eapply linked_dir.
      - apply dir_at_lookup; [by destruct D, p0|]. exists now.
        rewrite (li_in _ _ HL) by (apply Hdep; [set_solver|rewrite app_length; simpl; lia]).
        unfold sl_node. by rewrite decide_True, H1. }
    (* what a new node leaves *)
    assert (Hnew : ∀ m2 n, wf_fs m2 → m2 !! (D ++ p) = Some n → sl_node p (m !! (D ++ p)) = Some n →
      (∀ k, k ≠ D ++ p → m2 !! k = m1 !! k) → linked (X ++ [p]) m2).
    { intros m2 n Hwf2 Hn Hs Hk. split; [done| |].
      - intros k Hnk. rewrite Hk by (apply Hnk, elem_of_app; right; left). apply (li_out _ _ HL).
        intros q Hq. apply Hnk, elem_of_app. by left.
      - intros q [Hq|Hq%elem_of_list_singleton]%elem_of_app.
        + rewrite Hk; [by apply (li_in _ _ HL)|]. intros E. apply app_inv_head in E. by subst.
        + subst q. congruence. }
    pose proof (li_wf _ _ HL) as Hwf1.
    assert (Hsame : ∀ n, m !! (D ++ p) = Some n → sl_node p (m !! (D ++ p)) = Some n → linked (X ++ [p]) m1).
    { intros n Hn Hs. apply (Hnew m1 n); [done|congruence|done|done]. }
    destruct (decide (p ∈ dirs)) as [Hdir|Hdir].
    - rewrite bool_decide_true by done. apply wp_catch. apply wp_bind.
      destruct (m !! (D ++ p)) as [n|] eqn:Em.
      + eapply wp_run; [rewrite mkdir_run by done; rewrite Hold; reflexivity|constructor|]. simpl. apply wp_ret.
        replace false with (bool_decide (created p)). { apply HQ. apply (Hsame n); [done|]. unfold sl_node. by rewrite decide_True. }
        apply bool_decide_false. unfold created. rewrite Em. naive_solver.
      + assert (linked (X ++ [p]) (<[D ++ p := Dir now]> m1)) as HL2.
        { apply (Hnew _ (Dir now)).
          - apply wf_insert; try done.
          - by rewrite lookup_insert.
          - unfold sl_node. by rewrite decide_True.
          - intros k Hk. by rewrite lookup_insert_ne. }
        eapply wp_run; [rewrite mkdir_run by done; rewrite Hold; reflexivity|by constructor; [apply HI|constructor]|].
        simpl. apply wp_ret. replace true with (bool_decide (created p)); [by apply HQ|].
        apply bool_decide_true. by left.
    - rewrite bool_decide_false by done. rewrite bool_decide_true by set_solver. apply wp_catch, wp_bind.
      assert (Hlinked : ∀ m2, wf_fs m2 → dir_at m2 (parent (D ++ p)) → m2 !! (D ++ p) = None → (∀ k, k ≠ D ++ p → m2 !! k = m1 !! k) →
        (m !! (D ++ p) = None ∨ ow = true) → linked (X ++ [p]) (<[D ++ p := Link (abs_path (S ++ p)) now]> m2)).
      { intros m2 Hwf2 Hd2 Hn2 Hk2 Hor. apply (Hnew _ (Link (abs_path (S ++ p)) now)).
        - apply wf_insert; try done. intros t. by rewrite Hn2.
        - by rewrite lookup_insert.
        - unfold sl_node. rewrite decide_False by done. destruct Hor as [->| ->]; [done|]. by destruct (m !! (D ++ p)).
        - intros k Hk. rewrite lookup_insert_ne by done. auto. }
      destruct (m !! (D ++ p)) as [n|] eqn:Em.
      + eapply symlink_exists_wp; [done|exact Hold|]. simpl. destruct ow eqn:Eow.
        * assert (is_Dir n = false) as Hnd.
          { destruct n; try done. exfalso. apply (lk_over K Eow p); [set_solver|done|].
            apply dir_at_lookup; [done|by eexists]. }
          assert (∀ q n', m1 !! q = Some n' → ¬ child_of q (D ++ p)) as Hnc.
          { intros q n' Hq Hc. destruct (Hwf1 q n' Hq) as (_ & _ & Hd). destruct Hc as [x ->].
            rewrite parent_snoc in Hd. apply dir_at_lookup in Hd as [t Ht]; [|done]. rewrite Hold in Ht. injection Ht as ->. done. }
          assert (wf_fs (delete (D ++ p) m1)) as Hwd by (by apply wf_delete).
          assert (linked (X ++ [p]) (<[D ++ p := Link (abs_path (S ++ p)) now]> (delete (D ++ p) m1))) as HL2.
          { apply Hlinked; [done| |by rewrite lookup_delete|by intros k Hk; rewrite lookup_delete_ne|by right].
            destruct (decide (parent (D ++ p) = [])) as [->|Hpn]; [apply dir_at_nil|].
            apply dir_at_lookup; [done|]. apply (dir_at_lookup _ _ Hpn) in Hpar as [t Ht]. exists t.
            rewrite lookup_delete_ne; [done|]. intros E. rewrite <-E in Ht. rewrite Hold in Ht. injection Ht as ->. done. }
          apply wp_bind. eapply remove_wp; [done|exact Hold|done|apply HId; [done|set_solver|done|by eexists]|]. apply wp_bind.
          eapply symlink_wp; [done|done|done| |by rewrite lookup_delete|by apply HI|].
          { destruct (decide (parent (D ++ p) = [])) as [->|Hpn]; [apply dir_at_nil|].
            apply dir_at_lookup; [done|]. apply (dir_at_lookup _ _ Hpn) in Hpar as [t Ht]. exists t.
            rewrite lookup_delete_ne; [done|]. intros E. rewrite <-E in Ht. rewrite Hold in Ht. injection Ht as ->. done. }
          apply wp_ret. replace true with (bool_decide (created p)); [by apply HQ|].
          apply bool_decide_true. by right.
        * apply wp_ret. replace false with (bool_decide (created p)).
          { apply HQ. apply (Hsame n); [done|]. unfold sl_node. rewrite decide_False by done. rewrite ?Eow. done. }
          apply bool_decide_false. unfold created. rewrite Em, ?Eow. naive_solver.
      + assert (linked (X ++ [p]) (<[D ++ p := Link (abs_path (S ++ p)) now]> m1)) as HL2 by (apply Hlinked; by auto).
        apply symlink_wp; [done|done|done|done|done|by apply HI|].
        apply wp_ret. replace true with (bool_decide (created p)); [by apply HQ|].
        apply bool_decide_true. by left.
  Qed.

  Lemma linked_nil : linked [] m.
  Proof using K. split; [apply (lk_wf K)|done|]. intros q Hq. by apply elem_of_nil in Hq. Qed.

  Lemma link_all_wp (I : fs → Prop) Y : ∀ X m1 (Q : res (gset path) → fs → Prop),
    NoDup (X ++ Y) → (∀ q, q ∈ X ++ Y ↔ q ∈ dirs ∪ files) → StronglySorted (PySort.le depth_le) Y →
    linked X m1 →
    (∀ X p m2, p ∈ files → p ∉ dirs → ow = true → is_Some (m !! (D ++ p)) → linked X m2 → p ∉ X → (∀ q, q ∈ X → q ∈ dirs ∪ files) → I (delete (D ++ p) m2)) →
    (∀ X m2, linked X m2 → (∀ q, q ∈ X → q ∈ dirs ∪ files) → I m2) →
    (∀ m2, linked (X ++ Y) m2 → Q (Ok (list_to_set (filter created Y))) m2) →
    wp (link_all now S D files dirs ow Y) I Q m1.
  Proof using K.
    induction Y as [|p Y IH]; intros X m1 Q Hnd Hin Hs HL HId HI HQ; simpl.
    - apply wp_ret. specialize (HQ m1). rewrite app_nil_r in HQ. by apply HQ.
    - apply wp_bind. inversion_clear Hs as [|? ? Hs' Hall].
      assert (Hpx : p ∉ X). { apply NoDup_app in Hnd as (_ & H & _). intros H'. apply (H p H'). left. }
      apply (link_one_wp I _ X p m1 HL Hpx).
      + apply Hin, elem_of_app. right. left.
      + intros q Hq. apply Hin, elem_of_app. by left.
      + intros q Hq Hlt. apply Hin, elem_of_app in Hq as [?|[->|Hq]%elem_of_cons]; [done|lia|].
        rewrite Forall_forall in Hall. specialize (Hall q Hq). unfold PySort.le, depth_le in Hall. apply Nat.leb_le in Hall. lia.
      + intros. apply (HId X); [done..|]. intros q Hq. apply Hin, elem_of_app. by left.
      + intros m2 Hm2. eapply HI; [done|]. intros q Hq. apply Hin.
        apply elem_of_app in Hq as [?|?%elem_of_list_singleton]; apply elem_of_app; [by left|]. subst. right. left.
      + intros m2 Hm2. apply wp_bind. apply (IH (X ++ [p])); [by rewrite <-app_assoc|by intros q; rewrite <-app_assoc|done|done|done|done|].
        rewrite <-app_assoc. intros m3 Hm3. apply wp_ret.
        destruct (decide (created p)) as [Hc|Hc].
        * rewrite bool_decide_true by done. specialize (HQ m3 Hm3). rewrite filter_cons, decide_True in HQ by done.
          replace (_ ∪ _ : gset path) with (list_to_set (p :: filter created Y) : gset path) by set_solver. done.
        * rewrite bool_decide_false by done. specialize (HQ m3 Hm3). rewrite filter_cons, decide_False in HQ by done. done.
  Qed.

  Lemma symlink_tree_wp (iter : list path → list path) (I : fs → Prop) (Q : res (gset path) → fs → Prop) :
    (∀ l, iter l ≡ₚ l) →
    (∀ X p m2, p ∈ files → p ∉ dirs → ow = true → is_Some (m !! (D ++ p)) → linked X m2 → p ∉ X → (∀ q, q ∈ X → q ∈ dirs ∪ files) → I (delete (D ++ p) m2)) →
    (∀ X m2, linked X m2 → (∀ q, q ∈ X → q ∈ dirs ∪ files) → I m2) →
    (∀ X m2, linked X m2 → (∀ q, q ∈ X ↔ q ∈ dirs ∪ files) → Q (Ok (filter created (dirs ∪ files))) m2) →
    wp (symlink_tree now iter S D files dirs ow) I Q m.
  Proof using K.
    intros Hit HId HI HQ. unfold symlink_tree. apply wp_bind.
    assert (dirs_ok m D) as Hok.
    { intros q Hq Hp. right. eapply wf_dir_anc; [apply (lk_wf K)|apply (lk_dest K)|done]. }
    apply makedirs_wp; [apply (lk_wf K)|eapply wf_dir_valid; [apply (lk_wf K)|apply (lk_dest K)]|done| |].
    - intros q Hq. rewrite mk_existing; [|apply (lk_wf K)|eapply wf_dir_anc; [apply (lk_wf K)|apply (lk_dest K)|done]].
      eapply HI; [apply linked_nil|]. intros ? ?%elem_of_nil. done.
    - rewrite mk_existing; [|apply (lk_wf K)|apply (lk_dest K)].
      set (Y := isort depth_le (iter (elements (dirs ∪ files)))).
      assert (HY : ∀ q, q ∈ Y ↔ q ∈ dirs ∪ files).
      { intros q. unfold Y. rewrite elem_of_isort, Hit, elem_of_elements. done. }
      apply (link_all_wp I Y []); [| |apply depth_le_sorted|apply linked_nil|done|done|].
      + simpl. unfold Y. rewrite NoDup_isort, Hit. apply NoDup_elements.
      + done.
      + simpl. intros m2 Hm2. replace (list_to_set (filter created Y) : gset path) with (filter created (dirs ∪ files)); [by eapply HQ|].
        apply set_eq. intros q. rewrite elem_of_filter, elem_of_list_to_set, elem_of_list_filter. by rewrite HY.
  Qed.
End symlink.
