(** The loop of [transfer_tree]. *)
From Verif Require Export FstoolsProofs.
From stdpp Require Import options.

Definition apart (S D : path) : Prop := ¬ S `prefix_of` D ∧ ¬ D `prefix_of` S.
Lemma apart_ne S D p q : apart S D → S ++ p ≠ D ++ q.
Proof.
  intros [H1 H2] E. destruct (decide (length S <= length D)) as [Hl|Hl].
  - apply H1. apply (prefix_comparable S D (S ++ p)); [by exists p|by exists q|done].
  - apply H2. apply (prefix_comparable D S (S ++ p)); [by exists q|by exists p|lia].
Qed.
Lemma apart_sym S D : apart S D → apart D S.
Proof. intros [? ?]. by split. Qed.
Lemma apart_not_below S D p : apart S D → ¬ below (S ++ p) D.
Proof. intros H (x & l & E). by apply (apart_ne S D p (x :: l)) in E. Qed.
Lemma below_root (D k : path) : below k D ↔ ∃ q, q ≠ [] ∧ k = D ++ q.
Proof.
  split.
  - intros (x & l & ->). by exists (x :: l).
  - intros ([|x l] & H & ->); [done|]. by exists x, l.
Qed.
Lemma prefix_root_cases (D p k : path) : k `prefix_of` D ++ p → k `prefix_of` D ∨ ∃ q, q ≠ [] ∧ q `prefix_of` p ∧ k = D ++ q.
Proof.
  intros H. destruct (decide (length k <= length D)) as [Hl|Hl].
  - left. apply (prefix_comparable k D (D ++ p)); [done|by exists p|done].
  - right. assert (D `prefix_of` k) as [q ->] by (apply (prefix_comparable D k (D ++ p)); [by exists p|done|lia]).
    exists q. rewrite app_length in Hl. split; [by intros ->; simpl in Hl; lia|]. split; [|done]. by apply prefix_app_inv in H.
Qed.
Lemma prefix_not_below (k D : path) : k `prefix_of` D → ¬ below k D.
Proof. intros H (x & l & E). apply prefix_length in H. rewrite E, app_length in H. simpl in H. lia. Qed.

Definition nondir (n : option node) : Prop := match n with Some n => is_Dir n = false | None => False end.
Global Instance nondir_dec n : Decision (nondir n).
Proof. destruct n; simpl; apply _. Defined.
(** What stands at [D ++ q] after the paths [X] have been copied. *)
Definition tr_node (now : Z) (src dst : option node) (copied : Prop) `{Decision copied} (parent_of : Prop) `{Decision parent_of} : option node :=
  if decide (copied ∧ nondir src) then src
  else match dst with Some n => Some n | None => if decide parent_of then Some (Dir now) else None end.

Section transfer.
  Context (now : Z) (S D : path) (rm : bool) (m0 : fs).

  (** What stands in the way of no copy of [p], when the paths [W] are copied. *)
  Definition compat (W : path → Prop) (p : path) : Prop :=
    match m0 !! (S ++ p) with
    | Some (File c t) => m0 !! (D ++ p) = None ∨ (∃ c t, m0 !! (D ++ p) = Some (File c t))
                         ∨ ∃ k, m0 !! (D ++ p) = Some (Link (abs_path (S ++ p)) k)
    | Some (Link l t) => m0 !! (D ++ p) = None ∨ ∃ c t, m0 !! (D ++ p) = Some (File c t)
    | Some (Dir t) => (m0 !! (D ++ p) = None ∨ dir_at m0 (D ++ p)) ∧
        ∀ x, last p = Some x →
          (W (p ++ [x]) → ∀ l k, m0 !! (S ++ p ++ [x]) ≠ Some (Link l k)) ∧
          (∀ l k, m0 !! (D ++ p ++ [x]) = Some (Link l k) →
             l = abs_path (S ++ p ++ [x]) ∧ ∃ c t, m0 !! (S ++ p ++ [x]) = Some (File c t))
    | None => False
    end.
  Lemma compat_mono (W W' : path → Prop) p : (∀ q, W' q → W q) → compat W p → compat W' p.
  Proof. intros HW. unfold compat. destruct (m0 !! (S ++ p)) as [[]|]; [done..| |done]. intros [H1 H2]. split; [done|]. intros x Hx. destruct (H2 x Hx). auto. Qed.
  Record ready (l : list path) : Prop := {
    rd_wf : wf_fs m0;
    rd_apart : apart S D;
    rd_dest : dir_at m0 D;
    rd_nodup : NoDup l;
    rd_ne : ∀ p, p ∈ l → p ≠ [];
    rd_compat : ∀ p, p ∈ l → compat (λ q, q ∈ l) p;
    rd_dirs : ∀ p q, p ∈ l → q `prefix_of` p → q ≠ p → q ≠ [] → m0 !! (D ++ q) = None ∨ dir_at m0 (D ++ q);
    rd_order : ∀ a p b q, l = a ++ p :: b → q ∈ b → ¬ below q p;
    rd_closed : rm = true → ∀ p s n, p ∈ l → s ≠ [] → m0 !! (S ++ p ++ s) = Some n → p ++ s ∈ l
  }.

  Record copied (X : list path) (m : fs) : Prop := {
    cp_wf : wf_fs m;
    cp_out : ∀ k, ¬ below k D → ¬ (rm = true ∧ ∃ q, q ∈ X ∧ k = S ++ q) → m !! k = m0 !! k;
    cp_src : rm = true → ∀ q, q ∈ X → m !! (S ++ q) = None;
    cp_dst : ∀ q, q ≠ [] → m !! (D ++ q) = tr_node now (m0 !! (S ++ q)) (m0 !! (D ++ q)) (q ∈ X) (Exists (λ x, q `prefix_of` x) X)
  }.

  (** The states inside one round for [p] from [m]. *)
  Definition made (m : fs) (p : path) : fs := m ∪ dirmap now (parent (D ++ p)).
  Inductive mid (m : fs) (p : path) : fs → Prop :=
    | mid_mk q : q `prefix_of` D ++ p → (q = D ++ p → nondir (m0 !! (S ++ p)) → False) → mid m p (m ∪ dirmap now q)
    | mid_rm : nondir (m0 !! (S ++ p)) → mid m p (delete (D ++ p) (made m p))
    | mid_file c t i k : m0 !! (S ++ p) = Some (File c t) → mid m p (<[D ++ p := File (take i c) k]> (made m p))
    | mid_link l t k : m0 !! (S ++ p) = Some (Link l t) → mid m p (<[D ++ p := Link l k]> (made m p)).

  Context (l : list path) (R : ready l).

  Lemma src_node p : p ∈ l → ∃ n, m0 !! (S ++ p) = Some n.
  Proof using R. intros Hp. pose proof (rd_compat _ R p Hp) as H. unfold compat in H. destruct (m0 !! (S ++ p)); [eauto|done]. Qed.
  Lemma src_valid p : p ∈ l → valid_comps (S ++ p).
  Proof using R. intros Hp. destruct (src_node p Hp) as [n Hn]. by eapply wf_valid; [apply (rd_wf _ R)|]. Qed.
  Lemma dst_valid p : p ∈ l → valid_comps (D ++ p).
  Proof using R.
    intros Hp. apply valid_app. split; [eapply wf_dir_valid; [apply (rd_wf _ R)|apply (rd_dest _ R)]|].
    by apply src_valid, valid_app in Hp as [_ ?].
  Qed.
  (** A strict prefix of a path of the list is a source directory. *)
  Lemma src_prefix_dir p q : p ∈ l → q `prefix_of` p → q ≠ p → dir_at m0 (S ++ q).
  Proof using R.
    intros Hp Hq Hne. destruct (src_node p Hp) as [n Hn]. eapply wf_anc; [apply (rd_wf _ R)|exact Hn|by apply prefix_app|].
    intros E. by apply app_inv_head in E.
  Qed.
  Lemma src_prefix_nondir p q : p ∈ l → q `prefix_of` p → q ≠ p → q ≠ [] → ¬ nondir (m0 !! (S ++ q)).
  Proof using R.
    intros Hp Hq Hne Hqn. destruct (src_prefix_dir p q Hp Hq Hne) as [t Ht]. rewrite node_at_app_ne in Ht by done. by rewrite Ht.
  Qed.

  Lemma copied_nil : copied [] m0.
  Proof using R.
    split.
    - apply (rd_wf _ R).
    - done.
    - intros _ q Hq. by apply elem_of_nil in Hq.
    - intros q Hq. unfold tr_node. rewrite decide_False by (intros [H _]; by apply elem_of_nil in H).
      destruct (m0 !! (D ++ q)); [done|]. rewrite decide_False; [done|]. intros H; by apply Exists_nil in H.
  Qed.

  Section step.
    Context (X : list path) (p : path) (Y : list path) (El : l = X ++ p :: Y) (m : fs) (C : copied X m).
    Lemma st_in : p ∈ l.
    Proof using El. rewrite El. apply elem_of_app. right. left. Qed.
    Lemma st_fresh : p ∉ X.
    Proof using El R. pose proof (rd_nodup _ R) as H. rewrite El in H. apply NoDup_app in H as (_ & H & _). intros Hp. apply (H p Hp). left. Qed.
    Lemma st_X q : q ∈ X → q ∈ l.
    Proof using El. intros H. rewrite El. apply elem_of_app. by left. Qed.
    Lemma st_src q : q ∉ X → m !! (S ++ q) = m0 !! (S ++ q).
    Proof using C R.
      intros Hq. apply (cp_out _ _ C); [apply apart_not_below, (rd_apart _ R)|].
      intros [_ (q' & Hq' & E)]. apply app_inv_head in E. congruence.
    Qed.
    Lemma st_destdir : dir_at m D.
    Proof using C R.
      pose proof (rd_dest _ R) as Hd. destruct (decide (D = [])) as [E|Hn]; [rewrite E; apply dir_at_nil|].
      apply dir_at_lookup in Hd as [t Ht]; [|done]. apply dir_at_lookup; [done|]. exists t.
      rewrite (cp_out _ _ C); [done|apply prefix_not_below; reflexivity|]. intros [_ (q & _ & E)].
      apply (apart_ne S D q []); [apply (rd_apart _ R)|]. by rewrite app_nil_r.
    Qed.
    Lemma st_parents q : q `prefix_of` p → q ≠ p → q ≠ [] → m !! (D ++ q) = None ∨ dir_at m (D ++ q).
    Proof using C R El.
      intros Hq Hne Hqn. unfold dir_at. rewrite node_at_app_ne, (cp_dst _ _ C) by done. unfold tr_node.
      rewrite decide_False by (intros [_ H]; by apply (src_prefix_nondir p q st_in Hq Hne Hqn)).
      destruct (rd_dirs _ R p q st_in Hq Hne Hqn) as [->|Hd].
      - destruct (decide _); eauto.
      - destruct Hd as [t Ht]. rewrite node_at_app_ne in Ht by done. rewrite Ht. eauto.
    Qed.
    Lemma st_dirs_ok : dirs_ok m (D ++ parent p).
    Proof using C R El.
      intros k Hk Hp. apply prefix_root_cases in Hp as [Hp|(q & Hq & Hqp & ->)].
      - right. eapply wf_dir_anc; [apply (cp_wf _ _ C)|apply st_destdir|done].
      - apply st_parents; [| |done].
        + trans (parent p); [done|apply prefix_parent].
        + intros ->. apply prefix_length in Hqp. destruct (snoc_parent p (rd_ne _ R p st_in)) as [x Hx].
          rewrite Hx in Hqp at 1. rewrite app_length in Hqp. simpl in Hqp. lia.
    Qed.
    (** What stands at the destination. *)
    Lemma st_dst_nondir : nondir (m0 !! (S ++ p)) → m !! (D ++ p) = m0 !! (D ++ p).
    Proof using C R El.
      intros Hn. rewrite (cp_dst _ _ C) by (apply (rd_ne _ R), st_in). unfold tr_node.
      rewrite decide_False by (intros [H _]; by apply st_fresh). destruct (m0 !! (D ++ p)); [done|].
      rewrite decide_False; [done|]. intros H. apply Exists_exists in H as (x & Hx & Hpx).
      assert (p ≠ x) as Hne by (intros Epx; apply st_fresh; by rewrite Epx).
      exact (src_prefix_nondir x p (st_X x Hx) Hpx Hne (rd_ne _ R p st_in) Hn).
    Qed.
    Lemma parent_dst : parent (D ++ p) = D ++ parent p.
    Proof using R El. apply parent_app, (rd_ne _ R), st_in. Qed.
    Lemma made_wf : wf_fs (made m p).
    Proof using C R El.
      unfold made. rewrite parent_dst. apply wf_mk; [apply (cp_wf _ _ C)| |apply st_dirs_ok].
      rewrite <-parent_dst. apply valid_parent, dst_valid, st_in.
    Qed.
    Lemma made_parent : dir_at (made m p) (parent (D ++ p)).
    Proof using C R El. unfold made. rewrite parent_dst. apply dir_at_made; [apply st_dirs_ok|done]. Qed.
    Lemma made_lookup k : ¬ k `prefix_of` D ++ parent p → made m p !! k = m !! k.
    Proof using C R El.
      intros H. unfold made. rewrite parent_dst, lookup_mk. destruct (m !! k); [done|]. rewrite decide_False; [done|]. by intros [_ ?].
    Qed.
    Lemma made_some k n : m !! k = Some n → made m p !! k = Some n.
    Proof using Type. intros H. unfold made. by rewrite lookup_mk, H. Qed.
    Lemma dst_not_parent s : ¬ D ++ p ++ s `prefix_of` D ++ parent p.
    Proof using R El.
      intros H. apply prefix_app_inv in H. apply prefix_length in H. destruct (snoc_parent p (rd_ne _ R p st_in)) as [x Hx].
      rewrite Hx in H at 1. rewrite !app_length in H. simpl in H. lia.
    Qed.
    Lemma src_not_parent s : ¬ S ++ s `prefix_of` D ++ parent p.
    Proof using R.
      intros H. apply prefix_root_cases in H as [[k H]|(q & _ & _ & E)].
      - destruct (rd_apart _ R) as [H1 _]. apply H1. exists (s ++ k). by rewrite app_assoc.
      - by apply (apart_ne S D s q (rd_apart _ R)) in E.
    Qed.
    Lemma made_src s : made m p !! (S ++ s) = m !! (S ++ s).
    Proof using C R El. apply made_lookup, src_not_parent. Qed.
    Lemma made_dst s : made m p !! (D ++ p ++ s) = m !! (D ++ p ++ s).
    Proof using C R El. apply made_lookup, dst_not_parent. Qed.
    Lemma made_dst0 : made m p !! (D ++ p) = m !! (D ++ p).
    Proof using C R El. pose proof (made_dst []) as H. by rewrite app_nil_r in H. Qed.

    (** The state after the copy. *)
    Definition after : fs :=
      match m0 !! (S ++ p) with
      | Some (Dir _) => m ∪ dirmap now (D ++ p)
      | Some n => <[D ++ p := n]> (made m p)
      | None => m
      end.
    Lemma after_lookup_out k : ¬ below k D → after !! k = m !! k.
    Proof using C R El.
      intros Hk. assert (k ≠ D ++ p) as Hne.
      { intros ->. apply Hk. apply below_root. exists p. split; [apply (rd_ne _ R), st_in|done]. }
      assert (∀ s, s `prefix_of` p → (m ∪ dirmap now (D ++ s)) !! k = m !! k) as Hmk.
      { intros s Hs. rewrite lookup_mk. destruct (m !! k) eqn:E; [done|]. destruct (decide _) as [[H1 H2]|]; [|done].
        apply prefix_root_cases in H2 as [H2|(q & Hq & _ & ->)].
        - destruct (wf_dir_anc m (cp_wf _ _ C) D k st_destdir H2) as [t Ht]. rewrite node_at_ne in Ht by done. congruence.
        - exfalso. apply Hk. apply below_root. eauto. }
      unfold after. destruct (src_node p st_in) as [n Hn]. rewrite Hn.
      destruct n; [| |by apply Hmk]; rewrite lookup_insert_ne by done; unfold made; rewrite parent_dst; apply Hmk, prefix_parent.
    Qed.
    Lemma after_lookup_dst q : q ≠ [] →
      after !! (D ++ q) = tr_node now (m0 !! (S ++ q)) (m0 !! (D ++ q)) (q ∈ X ++ [p]) (Exists (λ x, q `prefix_of` x) (X ++ [p])).
    Proof using C R El.
      intros Hq. pose proof (cp_dst _ _ C q Hq) as Hm. destruct (src_node p st_in) as [n Hn].
      assert (Hmk : ∀ s, s `prefix_of` p → (q `prefix_of` s ↔ q `prefix_of` p) → ¬ nondir (m0 !! (S ++ q)) ∨ q ≠ p →
        (m ∪ dirmap now (D ++ s)) !! (D ++ q)
        = tr_node now (m0 !! (S ++ q)) (m0 !! (D ++ q)) (q ∈ X ++ [p]) (Exists (λ x, q `prefix_of` x) (X ++ [p]))).
      { intros s Hs Hqs Hor. rewrite lookup_mk, Hm. unfold tr_node.
        destruct (decide (q ∈ X ∧ nondir (m0 !! (S ++ q)))) as [[H1 H2]|H].
        - rewrite (decide_True (P := q ∈ X ++ [p] ∧ _)) by (split; [apply elem_of_app; by left|done]).
          destruct (m0 !! (S ++ q)); [done|]. by simpl in H2.
        - rewrite (decide_False (P := q ∈ X ++ [p] ∧ _)).
          2:{ intros [H1 H2]. apply elem_of_app in H1 as [H1|H1]; [by apply H|]. apply elem_of_list_singleton in H1. naive_solver. }
          destruct (m0 !! (D ++ q)); [done|].
          destruct (decide (Exists (λ x, q `prefix_of` x) X)) as [He|He].
          + rewrite decide_True; [done|]. apply Exists_app. by left.
          + destruct (decide (D ++ q ≠ [] ∧ D ++ q `prefix_of` D ++ s)) as [[_ H3]|H3].
            * rewrite decide_True; [done|]. apply Exists_app. right. apply Exists_cons_hd. apply Hqs. by apply prefix_app_inv in H3.
            * rewrite decide_False; [done|]. rewrite Exists_app, Exists_cons, Exists_nil. intros [?|[H4|?]]; [done| |done].
              apply H3. split; [by destruct D|]. apply prefix_app. by apply Hqs. }
      unfold after. rewrite Hn. destruct (decide (is_Dir n = true)) as [Hd|Hd].
      - apply is_Dir_true in Hd as [t ->]. apply Hmk; [done|done|].
        destruct (decide (q = p)) as [->|]; [|by right]. left. rewrite Hn. simpl. done.
      - apply not_true_is_false in Hd.
        assert (match n with Dir _ => m ∪ dirmap now (D ++ p) | _ => <[D ++ p:=n]> (made m p) end = <[D ++ p:=n]> (made m p)) as Ea by (by destruct n).
        rewrite Ea. destruct (decide (q = p)) as [->|Hqp].
        + rewrite lookup_insert. unfold tr_node. rewrite decide_True; [done|]. rewrite Hn. split; [apply elem_of_app; right; left|done].
        + rewrite lookup_insert_ne by (intros E; apply app_inv_head in E; congruence).
          unfold made. rewrite parent_dst. apply Hmk; [apply prefix_parent| |by right].
          split; [intros H; trans (parent p); [done|apply prefix_parent]|]. intros H. by apply prefix_parent_strict.
    Qed.
    Lemma after_wf : wf_fs after.
    Proof using C R El.
      unfold after. destruct (src_node p st_in) as [n Hn]. rewrite Hn.
      destruct (decide (is_Dir n = true)) as [Hd|Hd].
      - apply is_Dir_true in Hd as [t ->]. apply wf_mk; [apply (cp_wf _ _ C)|apply dst_valid, st_in|].
        intros k Hk Hp. destruct (decide (k = D ++ p)) as [->|Hkp].
        + rewrite (cp_dst _ _ C) by (apply (rd_ne _ R), st_in). unfold dir_at.
          rewrite node_at_app_ne, (cp_dst _ _ C) by (apply (rd_ne _ R), st_in).
          unfold tr_node. rewrite decide_False by (intros [H _]; by apply st_fresh).
          pose proof (rd_compat _ R p st_in) as Hc. unfold compat in Hc. rewrite Hn in Hc. destruct Hc as [[->|[t' Ht']] _].
          * destruct (decide _); eauto.
          * rewrite node_at_app_ne in Ht' by (apply (rd_ne _ R), st_in). rewrite Ht'. eauto.
        + apply st_dirs_ok; [done|]. rewrite <-parent_dst. by apply prefix_parent_strict.
      - apply not_true_is_false in Hd.
        assert (match n with Dir _ => m ∪ dirmap now (D ++ p) | _ => <[D ++ p:=n]> (made m p) end = <[D ++ p:=n]> (made m p)) as Ea by (by destruct n).
        rewrite Ea. apply wf_insert; [apply made_wf|apply dst_valid, st_in|by destruct D; [apply (rd_ne _ R), st_in|]|apply made_parent|].
        intros t. rewrite made_dst0, st_dst_nondir by (by rewrite Hn). intros E.
        pose proof (rd_compat _ R p st_in) as Hc. unfold compat in Hc. rewrite Hn in Hc. destruct n; naive_solver.
    Qed.
    Lemma st_dst_dir t : m0 !! (S ++ p) = Some (Dir t) → m !! (D ++ p) = None ∨ dir_at m (D ++ p).
    Proof using C R El.
      intros Hn. pose proof (rd_ne _ R p st_in) as Hpn. pose proof (rd_compat _ R p st_in) as Hc. unfold compat in Hc. rewrite Hn in Hc.
      unfold dir_at. rewrite node_at_app_ne, (cp_dst _ _ C) by done. unfold tr_node.
      rewrite decide_False by (intros [H _]; by apply st_fresh).
      destruct Hc as [[->|[t' Ht']] _].
      - destruct (decide _); eauto.
      - rewrite node_at_app_ne in Ht' by done. rewrite Ht'. eauto.
    Qed.
    Lemma mid_wf m' : mid m p m' → wf_fs m'.
    Proof using C R El.
      pose proof st_in as Hin. pose proof (rd_ne _ R p Hin) as Hpn. pose proof (dst_valid p Hin) as Hdv.
      assert (Hdne : D ++ p ≠ []) by (by destruct D; [|done]).
      assert (∀ n, m0 !! (S ++ p) = Some n → is_Dir n = false → ∀ t, made m p !! (D ++ p) ≠ Some (Dir t)) as Hnd.
      { intros n Hn Hd t. rewrite made_dst0, st_dst_nondir by (by rewrite Hn). intros E.
        pose proof (rd_compat _ R p Hin) as Hc. unfold compat in Hc. rewrite Hn in Hc. destruct n; naive_solver. }
      destruct (src_node p Hin) as [n Hn]. intros [q Hq Hqn|Hnd'|c t i k E|l' t k E].
      - apply wf_mk; [apply (cp_wf _ _ C)| |].
        + eapply Forall_impl; [|done]. destruct Hq as [r Hr]. rewrite Hr in Hdv. apply valid_app in Hdv as [? _]. done.
        + intros k Hk Hkq. destruct (decide (k = D ++ p)) as [->|Hne].
          * destruct n as [| |t].
            -- exfalso. apply Hqn; [|by rewrite Hn]. by apply (anti_symm prefix).
            -- exfalso. apply Hqn; [|by rewrite Hn]. by apply (anti_symm prefix).
            -- by eapply st_dst_dir.
          * apply st_dirs_ok; [done|]. rewrite <-parent_dst. apply prefix_parent_strict; [by trans q|done].
      - apply wf_delete; [apply made_wf|]. intros q n' Hq Hc. rewrite Hn in Hnd'.
        destruct (made m p !! (D ++ p)) as [nd|] eqn:E.
        + revert Hc. eapply wf_nondir_nochild; [apply made_wf|exact E| |exact Hq].
          destruct nd as [| |t]; [done..|]. by destruct (Hnd n Hn Hnd' t).
        + apply child_parent in Hc as [_ Hc]. apply made_wf in Hq as (_ & _ & t & Ht). rewrite Hc, node_at_ne in Ht by done. congruence.
      - apply wf_insert; [apply made_wf|done|done|apply made_parent|]. intros t' Ht'. by destruct (Hnd _ E eq_refl t').
      - apply wf_insert; [apply made_wf|done|done|apply made_parent|]. intros t' Ht'. by destruct (Hnd _ E eq_refl t').
    Qed.

    (** Running the copy. *)
    Lemma copy_wp (I : fs → Prop) (Q : res unit → fs → Prop) :
      (∀ m', mid m p m' → I m') → Q (Ok tt) after →
      wp (makedirs now (parent (D ++ p)) ;!
          catch (copy2 now (S ++ p) (D ++ p)) (λ e,
            match e with
            | SameFile | FileExists => Some (remove (D ++ p) ;! copy2 now (S ++ p) (D ++ p))
            | IsADir => Some (makedirs now (D ++ p))
            | _ => None
            end)) I Q m.
    Proof using C R El.
      intros HI HQ. pose proof st_in as Hin. pose proof (rd_ne _ R p Hin) as Hpn.
      assert (Hdne : D ++ p ≠ []) by (by destruct D; [|done]).
      assert (Hsd : S ++ p ≠ D ++ p) by (apply apart_ne, (rd_apart _ R)).
      pose proof (dst_valid p Hin) as Hdv.
      apply wp_bind. rewrite parent_dst.
      apply makedirs_wp; [apply (cp_wf _ _ C)|by rewrite <-parent_dst; apply valid_parent|apply st_dirs_ok| |].
      { intros q Hq. apply HI. apply mid_mk.
        - trans (D ++ parent p); [done|apply prefix_app, prefix_parent].
        - intros -> _. apply (dst_not_parent []). by rewrite app_nil_r. }
      rewrite <-parent_dst. fold (made m p).
      pose proof made_wf as Hwf1. pose proof made_parent as Hd1.
      pose proof (rd_compat _ R p Hin) as Hc. unfold compat in Hc. destruct (src_node p Hin) as [n Hn]. rewrite Hn in Hc.
      assert (Hs1 : made m p !! (S ++ p) = Some n) by (by rewrite made_src, st_src; [|apply st_fresh]).
      assert (Hdst1 : nondir (m0 !! (S ++ p)) → made m p !! (D ++ p) = m0 !! (D ++ p)).
      { intros H. by rewrite made_dst0, st_dst_nondir. }
      apply wp_catch. unfold after in HQ. rewrite Hn in HQ.
      destruct n as [c t|lt t|t].
      - rewrite Hn in Hdst1. specialize (Hdst1 eq_refl).
        assert (HIw : (∀ i, I (<[D ++ p:=File (take i c) now]> (made m p))) ∧ I (<[D ++ p:=File c t]> (made m p))).
        { split; [intros i; apply HI; by eapply mid_file|]. rewrite <-(firstn_all c) at 1. apply HI. by eapply mid_file. }
        destruct HIw as [HI1 HI2].
        destruct Hc as [Hc|[Hc|[k Hc]]].
        + apply (copy2_file _ _ _ _ _ _ Hwf1 Hsd Hdne Hdv Hd1 c t); [exact Hs1|by left; rewrite Hdst1|exact HI1|exact HI2|exact HQ].
        + apply (copy2_file _ _ _ _ _ _ Hwf1 Hsd Hdne Hdv Hd1 c t); [exact Hs1|by right; rewrite Hdst1|exact HI1|exact HI2|exact HQ].
        + rewrite Hc in Hdst1.
          assert (resolve true (made m p) (D ++ p) = Ok (S ++ p)) as Hr.
          { eapply resolve_abs_link; [done|exact Hdst1|by apply src_valid|by apply Hwf1 in Hs1 as (_ & _ & ?)|].
            intros ?? E. congruence. }
          apply (copy2_same _ _ _ _ _ _ Hwf1 c t Hs1 Hr).
          apply wp_bind. eapply remove_wp; [done|exact Hdst1|done|apply HI, mid_rm; by rewrite Hn|].
          assert (Hwf2 : wf_fs (delete (D ++ p) (made m p))).
          { apply wf_delete; [done|]. by eapply wf_nondir_nochild. }
          assert (Hd2 : dir_at (delete (D ++ p) (made m p)) (parent (D ++ p))).
          { destruct (decide (parent (D ++ p) = [])) as [E|E]; [rewrite E; apply dir_at_nil|].
            apply dir_at_lookup in Hd1 as [t' Ht']; [|done]. apply dir_at_lookup; [done|]. exists t'.
            rewrite lookup_delete_ne; [done|]. intros E'. rewrite parent_dst in E'. apply app_inv_head in E'.
            destruct (snoc_parent p Hpn) as [x Hx]. rewrite <-E' in Hx. apply (f_equal length) in Hx. rewrite app_length in Hx. simpl in Hx. lia. }
          apply (copy2_file _ _ _ _ _ _ Hwf2 Hsd Hdne Hdv Hd2 c t).
          * by rewrite lookup_delete_ne.
          * left. by rewrite lookup_delete.
          * intros i. rewrite insert_delete_insert. apply HI1.
          * by rewrite insert_delete_insert.
          * by rewrite insert_delete_insert.
      - rewrite Hn in Hdst1. specialize (Hdst1 eq_refl).
        assert (HI1 : ∀ k, I (<[D ++ p:=Link lt k]> (made m p))) by (intros k; apply HI; by eapply mid_link).
        destruct Hc as [Hc|(c' & t' & Hc)].
        + apply (copy2_link _ _ _ _ _ _ Hwf1 Hsd Hdne Hdv Hd1 lt t); [exact Hs1|by rewrite Hdst1|apply HI1|apply HI1|exact HQ].
        + rewrite Hc in Hdst1.
          apply (copy2_link_exists _ _ _ _ _ _ Hwf1 Hsd Hdne Hdv Hd1 lt t c' t' Hs1 Hdst1). intros e He.
          assert (wp (remove (D ++ p) ;! copy2 now (S ++ p) (D ++ p)) I Q (made m p)); [|by destruct He as [->| ->]].
          apply wp_bind. eapply remove_wp; [done|exact Hdst1|done|apply HI, mid_rm; by rewrite Hn|].
          assert (Hwf2 : wf_fs (delete (D ++ p) (made m p))).
          { apply wf_delete; [done|]. by eapply wf_nondir_nochild. }
          assert (Hd2 : dir_at (delete (D ++ p) (made m p)) (parent (D ++ p))).
          { destruct (decide (parent (D ++ p) = [])) as [E|E]; [rewrite E; apply dir_at_nil|].
            apply dir_at_lookup in Hd1 as [t'' Ht']; [|done]. apply dir_at_lookup; [done|]. exists t''.
            rewrite lookup_delete_ne; [done|]. intros E'. rewrite parent_dst in E'. apply app_inv_head in E'.
            destruct (snoc_parent p Hpn) as [x Hx]. rewrite <-E' in Hx. apply (f_equal length) in Hx. rewrite app_length in Hx. simpl in Hx. lia. }
          apply (copy2_link _ _ _ _ _ _ Hwf2 Hsd Hdne Hdv Hd2 lt t).
          * by rewrite lookup_delete_ne.
          * by rewrite lookup_delete.
          * rewrite insert_delete_insert. apply HI1.
          * by rewrite insert_delete_insert.
          * by rewrite insert_delete_insert.
      - destruct Hc as [Hc Hecho].
        destruct (snoc_parent p Hpn) as [x Hx].
        assert (last (S ++ p) = Some x) as Hlast by (rewrite Hx, app_assoc; apply last_snoc).
        assert (last p = Some x) as Hlastp by (rewrite Hx; apply last_snoc).
        specialize (Hecho x Hlastp) as [Hecho1 Hecho2].
        assert (Hmd : made m p !! (D ++ p) = None ∨ dir_at (made m p) (D ++ p)).
        { unfold dir_at. rewrite node_at_app_ne, made_dst0, (cp_dst _ _ C) by done. unfold tr_node.
          rewrite decide_False by (intros [H _]; by apply st_fresh).
          destruct Hc as [->|[t' Ht']].
          - destruct (decide _); eauto.
          - rewrite node_at_app_ne in Ht' by done. rewrite Ht'. eauto. }
        eapply (copy2_dir _ _ _ _ _ _ Hwf1 Hsd Hdne Hdv Hd1 x); [by exists t; rewrite node_at_app_ne|done| |].
        + destruct Hmd as [?|Hmd]; [by left|]. right. split; [done|].
          (* the entry of the same name inside is no link to the source *)
          assert (Hxv : valid_comps (D ++ p ++ [x])).
          { rewrite app_assoc. apply valid_app. split; [done|]. rewrite Hx in Hdv. rewrite app_assoc in Hdv. by apply valid_app in Hdv as [_ ?]. }
          rewrite <-app_assoc. intros Hr.
          destruct (made m p !! (D ++ p ++ [x])) as [nx|] eqn:Ex.
          * assert (is_Link nx = false → False) as HL.
            { intros Hnl. rewrite resolve_follow in Hr; [|done|done| |].
              - injection Hr as Hr. by apply (apart_ne S D p (p ++ [x]) (rd_apart _ R)).
              - rewrite app_assoc, parent_snoc. done.
              - intros l' k' E. rewrite E in Ex. injection Ex as <-. done. }
            destruct nx as [| lt k|]; [by apply HL| |by apply HL].
            rewrite made_dst, (cp_dst _ _ C) in Ex by (by destruct p). unfold tr_node in Ex.
            destruct (decide _) as [[Hcop _]|Hnc].
            -- by apply (Hecho1 (st_X _ Hcop) lt k).
            -- destruct (m0 !! (D ++ p ++ [x])) as [nd|] eqn:Em0; [|destruct (decide _); done].
               injection Ex as ->. destruct (Hecho2 lt k eq_refl) as [-> (c' & t' & Hf)].
               assert (Hmade : made m p !! (S ++ p ++ [x]) = Some (File c' t') ∨ made m p !! (S ++ p ++ [x]) = None).
               { rewrite made_src. destruct (decide (p ++ [x] ∈ X)) as [HX|HX].
                 - destruct rm eqn:Erm; [right; by apply (cp_src _ _ C)|]. left. rewrite (cp_out _ _ C); [done|apply apart_not_below, (rd_apart _ R)|]. intros [Hrm _]; congruence.
                 - left. by rewrite st_src. }
               assert (Ex' : made m p !! (D ++ p ++ [x]) = Some (Link (abs_path (S ++ p ++ [x])) k)).
               { rewrite made_dst, (cp_dst _ _ C) by (by destruct p). unfold tr_node. rewrite decide_False by done. by rewrite Em0. }
               assert (valid_comps (S ++ p ++ [x])) by (eapply wf_valid; [apply (rd_wf _ R)|exact Hf]).
               rewrite (resolve_abs_link _ Hwf1 _ _ _ Ex') in Hr; [|done| |].
               ++ injection Hr as Hr. rewrite app_assoc in Hr. apply (f_equal length) in Hr. rewrite !app_length in Hr. simpl in Hr. lia.
               ++ rewrite app_assoc, parent_snoc. exists t. by rewrite node_at_app_ne.
               ++ intros ?? E. destruct Hmade as [Hmade|Hmade]; congruence.
          * rewrite resolve_follow in Hr; [|done|done| |].
            -- injection Hr as Hr. by apply (apart_ne S D p (p ++ [x]) (rd_apart _ R)).
            -- rewrite app_assoc, parent_snoc. done.
            -- intros ?? E. congruence.
        + (* makedirs *)
          assert (made m p ∪ dirmap now (D ++ p) = m ∪ dirmap now (D ++ p)) as Emk.
          { unfold made. apply mk_mk. apply prefix_parent. }
          apply makedirs_wp; [done|done| | |].
          * intros k Hk Hkp. destruct (decide (k = D ++ p)) as [->|Hne]; [done|].
            right. eapply wf_dir_anc; [done|exact Hd1|]. by apply prefix_parent_strict.
          * intros q Hq. destruct (decide (q = D ++ p)) as [->|Hne].
            -- rewrite Emk. apply HI, mid_mk; [done|]. intros _. by rewrite Hn.
            -- rewrite mk_existing; [|done|eapply wf_dir_anc; [done|exact Hd1|by apply prefix_parent_strict]].
               unfold made. apply HI, mid_mk; [apply prefix_parent|]. intros _. by rewrite Hn.
          * by rewrite Emk.
    Qed.
    Lemma after_src s : after !! (S ++ s) = m !! (S ++ s).
    Proof using C R El. apply after_lookup_out, apart_not_below, (rd_apart _ R). Qed.
    Lemma copied_keep : rm = false → copied (X ++ [p]) after.
    Proof using C R El.
      intros Hrm. split.
      - apply after_wf.
      - intros k Hk _. rewrite after_lookup_out by done. apply (cp_out _ _ C); [done|]. intros [? _]. congruence.
      - congruence.
      - apply after_lookup_dst.
    Qed.
    Lemma no_children : rm = true → ∀ q n, after !! q = Some n → ¬ child_of q (S ++ p).
    Proof using C R El.
      intros Hrm q n Hq [x ->]. rewrite <-app_assoc in Hq. rewrite after_src in Hq.
      destruct (decide (p ++ [x] ∈ X)) as [HX|HX]; [by rewrite (cp_src _ _ C) in Hq|].
      rewrite st_src in Hq by done.
      pose proof (rd_closed _ R Hrm p [x] n st_in ltac:(done) Hq) as Hl.
      rewrite El in Hl. apply elem_of_app in Hl as [?|Hl]; [done|]. apply elem_of_cons in Hl as [E|Hl].
      - apply (f_equal length) in E. rewrite app_length in E. simpl in E. lia.
      - apply (rd_order _ R X p Y (p ++ [x]) El Hl). by exists x, [].
    Qed.
    Lemma copied_rm : rm = true → copied (X ++ [p]) (delete (S ++ p) after).
    Proof using C R El.
      intros Hrm. split.
      - apply wf_delete; [apply after_wf|by apply no_children].
      - intros k Hk Hn.
        assert (S ++ p ≠ k) as Hne. { intros <-. apply Hn. split; [done|]. exists p. split; [apply elem_of_app; right; left|done]. }
        rewrite lookup_delete_ne, after_lookup_out by done. apply (cp_out _ _ C); [done|].
        intros [_ (q & Hq & ->)]. apply Hn. split; [done|]. exists q. split; [apply elem_of_app; by left|done].
      - intros _ q Hq. destruct (decide (q = p)) as [->|Hne]; [by rewrite lookup_delete|].
        rewrite lookup_delete_ne by (intros E; apply app_inv_head in E; congruence). rewrite after_src.
        apply elem_of_app in Hq as [Hq|Hq]; [by apply (cp_src _ _ C)|]. by apply elem_of_list_singleton in Hq.
      - intros q Hq. rewrite lookup_delete_ne by (apply apart_ne, (rd_apart _ R)). by apply after_lookup_dst.
    Qed.
    Lemma rm_wp (I : fs → Prop) (Q : res unit → fs → Prop) :
      rm = true → I (delete (S ++ p) after) → Q (Ok tt) (delete (S ++ p) after) →
      wp (catch (remove (S ++ p)) (λ e, if is_oserror e then Some (rmdir (S ++ p)) else None)) I Q after.
    Proof using C R El.
      intros Hrm HI HQ. apply wp_catch. destruct (src_node p st_in) as [n Hn].
      assert (Ha : after !! (S ++ p) = Some n) by (by rewrite after_src, st_src; [|apply st_fresh]).
      pose proof after_wf as Hwf. destruct (Hwf _ _ Ha) as (Hsne & Hsv & Hsd).
      destruct (is_Dir n) eqn:Hd; [|by eapply remove_wp].
      apply is_Dir_true in Hd as [t ->]. unfold remove.
      apply wp_bind, wp_eval. rewrite resolve_nofollow by done. apply wp_bind, wp_get. rewrite node_at_ne, Ha by done. apply wp_throw.
      simpl. unfold rmdir. apply wp_bind, wp_eval. rewrite resolve_nofollow by done. apply wp_bind, wp_get. rewrite node_at_ne, Ha by done.
      apply wp_bind, wp_get. rewrite (bool_decide_false (S ++ p = [])) by done.
      assert (entries after (S ++ p) = []) as -> by (by apply entries_nil, no_children).
      simpl. by apply wp_put.
    Qed.
    Definition final : fs := if rm then delete (S ++ p) after else after.
    Lemma copied_final : copied (X ++ [p]) final.
    Proof using C R El. unfold final. destruct rm eqn:E; [by apply copied_rm|by apply copied_keep]. Qed.
    Lemma transfer_one_wp (I : fs → Prop) (Q : res unit → fs → Prop) :
      (∀ m', mid m p m' → I m') → I final → Q (Ok tt) final → wp (transfer_one now S D rm p) I Q m.
    Proof using C R El.
      intros HI HIf HQ. unfold transfer_one. cbv zeta.
      assert (wp ((makedirs now (parent (D ++ p)) ;!
          catch (copy2 now (S ++ p) (D ++ p)) (λ e,
            match e with
            | SameFile | FileExists => Some (remove (D ++ p) ;! copy2 now (S ++ p) (D ++ p))
            | IsADir => Some (makedirs now (D ++ p))
            | _ => None
            end)) ;! (if rm then catch (remove (S ++ p)) (λ e, if is_oserror e then Some (rmdir (S ++ p)) else None) else ret tt)) I Q m) as H.
      { apply wp_bind. apply copy_wp; [done|]. unfold final in *. destruct rm eqn:E.
        - apply rm_wp; by rewrite ?E.
        - by apply wp_ret. }
      unfold wp in H. rewrite bind_assoc in H. exact H.
    Qed.
  End step.

  Theorem transfer_loop_wp (I : fs → Prop) (Q : res unit → fs → Prop) :
    (∀ X p Y m m', l = X ++ p :: Y → copied X m → mid m p m' → I m') →
    (∀ X Y m, l = X ++ Y → copied X m → I m) →
    (∀ m, copied l m → Q (Ok tt) m) →
    wp (for_ l (transfer_one now S D rm)) I Q m0.
  Proof using R.
    intros HI HI' HQ. apply (wp_for_inv I l _ copied).
    - apply copied_nil.
    - intros X p Y m El C. eapply transfer_one_wp; [exact El|exact C|by eauto| |].
      + eapply (HI' (X ++ [p]) Y); [by rewrite <-app_assoc|by eapply copied_final].
      + by eapply copied_final.
    - done.
  Qed.
End transfer.

(** The order of the transfer: entries before their directory. *)
Lemma rel_path_below (q p : path) : p ≠ [] → below q p → ∃ r, rel_path q = rel_path p ++ c_slash :: r.
Proof.
  intros Hp (x & l & ->). unfold rel_path. exists (join_on c_slash (x :: l)). apply join_on_app; done.
Qed.
Lemma text_order_children (X : gset path) (a b : list path) (p q : path) :
  (∀ p, p ∈ X → p ≠ []) → text_order X = a ++ p :: b → q ∈ b → ¬ below q p.
Proof.
  intros Hne E Hq Hb. assert (p ∈ X) as Hp.
  { apply elem_of_elements. rewrite <-(elem_of_isort text_ge). fold (text_order X). rewrite E. apply elem_of_app. right. left. }
  destruct (rel_path_below q p (Hne p Hp) Hb) as [r Hr].
  assert (StronglySorted (PySort.le text_ge) (text_order X)) as Hs.
  { apply isort_sorted; unfold text_ge.
    - intros x y z H1 H2. by eapply str_leb_trans.
    - intros x y. destruct (str_leb_total (rel_path x) (rel_path y)); auto. }
  rewrite E in Hs. assert (StronglySorted (PySort.le text_ge) (p :: b)) as Hs'.
  { clear -Hs. induction a as [|x a IH]; [done|]. inversion_clear Hs. by apply IH. }
  inversion_clear Hs' as [|? ? _ Hall].
  rewrite Forall_forall in Hall. specialize (Hall q Hq). unfold PySort.le, text_ge in Hall. rewrite Hr in Hall.
  assert (H2 : str_leb (rel_path p) (rel_path p ++ c_slash :: r) = true) by (apply str_leb_prefix; by eexists).
  pose proof (str_leb_antisym _ _ Hall H2) as H3. apply (f_equal length) in H3. rewrite app_length in H3. simpl in H3. lia.
Qed.

(** What a transfer is asked to copy. *)
Definition plain (m : fs) (p : path) : Prop := ∃ n, stat true m p = Ok n ∧ is_Dir n = false.
Definition wanted (m : fs) (S : path) (files : option (list path)) (exclude : gset path) (q : path) : Prop :=
  q ∉ exclude ∧
  match files with
  | None => q ≠ [] ∧ is_Some (m !! (S ++ q))
  | Some fl => ∃ p, p ∈ fl ∧ ((¬ dir_at m (S ++ p) ∧ q = p) ∨ (dir_at m (S ++ p) ∧ below q p ∧ is_Some (m !! (S ++ q))))
  end.
Definition requested (m : fs) (S : path) (files : option (list path)) : Prop :=
  match files with
  | None => True
  | Some fl => ∀ p, p ∈ fl → dir_at m (S ++ p) ∨ (is_Some (m !! (S ++ p)) ∧ ¬ dir_at m (S ++ p) ∧ plain m (S ++ p))
  end.

Lemma scan_tree_plain m p : plain m p → scan_tree m p = Err NotADir.
Proof.
  intros (n & Hs & Hn). unfold stat in Hs. unfold scan_tree. simpl. unfold scandir.
  destruct (resolve true m p) as [d|e]; [|done]. destruct (node_at m d) as [k|]; [|done].
  injection Hs as ->. destruct n; try done.
Qed.
Lemma rel_to_app (S p : path) : rel_to S (S ++ p) = p.
Proof. unfold rel_to. by rewrite drop_app. Qed.
Lemma gather_spec m S fl : wf_fs m → requested m S (Some fl) →
  ∃ l, gather m S fl = Ok l ∧ ∀ q, q ∈ l ↔ wanted m S (Some fl) ∅ q.
Proof.
  intros Hwf. induction fl as [|p fl IH]; intros Hr; simpl.
  - exists []. split; [done|]. intros q. split; [by intros ?%elem_of_nil|]. by intros (_ & p & ?%elem_of_nil & _).
  - destruct IH as (r & Er & Hr'); [intros p' Hp'; apply Hr; by right|].
    destruct (Hr p (elem_of_list_here _ _)) as [Hd|(Hs & Hnd & Hp)].
    + destruct (scan_tree_dir m Hwf _ Hd) as (l & El & _ & Hl). rewrite El, Er. eexists. split; [done|]. intros q.
      rewrite elem_of_app, elem_of_list_fmap, Hr'. split.
      * intros [(y & -> & Hy)|(_ & p' & Hp' & H)].
        -- apply Hl in Hy as (s & k & -> & Hs & Hk). split; [set_solver|]. exists p. split; [left|]. right.
           rewrite <-app_assoc, rel_to_app. rewrite <-app_assoc in Hk. split; [done|]. split; [|by eexists].
           apply below_root. eauto.
        -- split; [set_solver|]. exists p'. split; [by right|done].
      * intros (_ & p' & Hp' & H). apply elem_of_cons in Hp' as [->|Hp'].
        -- left. destruct H as [[? _]|(_ & Hb & [k Hk])]; [done|]. apply below_root in Hb as (s & Hs & ->).
           exists (S ++ p ++ s). rewrite rel_to_app. split; [done|]. apply Hl. exists s, k. by rewrite <-app_assoc.
        -- right. split; [set_solver|]. eauto.
    + rewrite (scan_tree_plain _ _ Hp), Er. eexists. split; [done|]. intros q. rewrite elem_of_cons, Hr'. split.
      * intros [->|(_ & p' & Hp' & H)]; (split; [set_solver|]).
        -- exists p. split; [left|by left].
        -- exists p'. split; [by right|done].
      * intros (_ & p' & Hp' & H). apply elem_of_cons in Hp' as [->|Hp'].
        -- left. by destruct H as [[_ ->]|(? & _)].
        -- right. split; [set_solver|]. eauto.
Qed.
Lemma to_transfer_spec m S files : wf_fs m → dir_at m S → requested m S files →
  ∃ l, to_transfer m S files = Ok l ∧ ∀ q, q ∈ l ↔ wanted m S files ∅ q.
Proof.
  intros Hwf Hd Hr. destruct files as [fl|]; [by apply gather_spec|]. simpl.
  destruct (scan_tree_dir m Hwf _ Hd) as (l & El & _ & Hl). rewrite El. eexists. split; [done|]. intros q.
  rewrite elem_of_list_fmap. split.
  - intros (y & -> & Hy). apply Hl in Hy as (s & k & -> & Hs & Hk). rewrite rel_to_app. split; [set_solver|]. eauto.
  - intros (_ & Hq & [k Hk]). exists (S ++ q). rewrite rel_to_app. split; [done|]. apply Hl. eauto.
Qed.

Record transferable (rm : bool) (m : fs) (S D : path) (files : option (list path)) (exclude : gset path) : Prop := {
  ta_wf : wf_fs m;
  ta_apart : apart S D;
  ta_src : dir_at m S;
  ta_dst : dir_at m D;
  ta_files : requested m S files;
  ta_compat : ∀ q, wanted m S files exclude q → compat S D m (wanted m S files exclude) q;
  ta_dirs : ∀ q p, wanted m S files exclude q → p `prefix_of` q → p ≠ q → p ≠ [] →
    m !! (D ++ p) = None ∨ dir_at m (D ++ p);
  ta_closed : rm = true → ∀ q s, wanted m S files exclude q → is_Some (m !! (S ++ q ++ s)) → q ++ s ∉ exclude
}.
Lemma wanted_ne m S files exclude q : dir_at m S → wanted m S files exclude q → q ≠ [].
Proof.
  intros Hd (_ & H) ->. destruct files as [fl|]; [|naive_solver].
  destruct H as (p & _ & [[H <-]|(_ & (x & l & E) & _)]); [rewrite app_nil_r in H; done|]. by destruct p.
Qed.
Lemma wanted_below m S files exclude q s : wf_fs m → wanted m S files exclude q → s ≠ [] →
  is_Some (m !! (S ++ q ++ s)) → q ++ s ∉ exclude → wanted m S files exclude (q ++ s).
Proof.
  intros Hwf (_ & H) Hs Hk He. split; [done|]. destruct files as [fl|].
  - destruct H as (p & Hp & [[H ->]|(H & Hb & _)]); exists p; (split; [done|]); right.
    + exfalso. apply H. destruct Hk as [k Hk]. eapply wf_anc; [done|exact Hk|apply prefix_app; by exists s|].
      intros E. apply (f_equal length) in E. rewrite !app_length in E. destruct s; [done|]. simpl in E. lia.
    + split; [done|]. split; [|done]. destruct Hb as (x & l & ->). exists x, (l ++ s). by rewrite <-app_assoc.
  - destruct H as [Hq _]. split; [|done]. by destruct q.
Qed.
Lemma transfer_ready rm m S D files exclude : transferable rm m S D files exclude →
  ∃ l, to_transfer m S files = Ok l ∧
    let todo := text_order (list_to_set l ∖ exclude) in
    ready S D rm m todo ∧ ∀ q, q ∈ todo ↔ wanted m S files exclude q.
Proof.
  intros T. destruct (to_transfer_spec m S files) as (l & El & Hl); [apply T..|].
  exists l. split; [done|]. cbv zeta.
  assert (Hq : ∀ q, q ∈ text_order (list_to_set l ∖ exclude) ↔ wanted m S files exclude q).
  { intros q. unfold text_order. rewrite elem_of_isort, elem_of_elements, elem_of_difference, elem_of_list_to_set, Hl.
    unfold wanted. set_solver. }
  split; [|done]. split.
  - apply T.
  - apply T.
  - apply T.
  - unfold text_order. rewrite NoDup_isort. apply NoDup_elements.
  - intros p Hp%Hq. eapply wanted_ne; [apply T|done].
  - intros p Hp%Hq. eapply compat_mono; [|by apply (ta_compat _ _ _ _ _ _ T)]. intros q. apply Hq.
  - intros p q Hp%Hq. by apply (ta_dirs _ _ _ _ _ _ T).
  - intros a p b q E Hb. eapply text_order_children; [|done|done]. intros r Hr.
    apply elem_of_elements in Hr. rewrite <-(elem_of_isort text_ge) in Hr. fold (text_order (list_to_set l ∖ exclude)) in Hr.
    apply Hq in Hr. eapply wanted_ne; [apply T|done].
  - intros Hrm p s n Hp%Hq Hs Hn. apply Hq. apply wanted_below; [apply T|done|done|by eexists|].
    eapply (ta_closed _ _ _ _ _ _ T); [done|done|by eexists].
Qed.
Lemma transfer_tree_wp now tty rm m S D files exclude (I : fs → Prop) (Q : res unit → fs → Prop) :
  transferable rm m S D files exclude →
  (tty = true → ∀ q, wanted m S files exclude q → exists_ m (S ++ q) = true) →
  (∀ l, ready S D rm m l → (∀ q, q ∈ l ↔ wanted m S files exclude q) →
    (∀ X p Y m1 m2, l = X ++ p :: Y → copied now S D rm m X m1 → mid now S D m m1 p m2 → I m2) ∧
    (∀ X Y m1, l = X ++ Y → copied now S D rm m X m1 → I m1) ∧
    (∀ m1, copied now S D rm m l m1 → Q (Ok tt) m1)) →
  wp (transfer_tree now tty S D files exclude rm) I Q m.
Proof.
  intros T Htty H. unfold transfer_tree. destruct (transfer_ready _ _ _ _ _ _ T) as (l & El & R & Hq).
  specialize (H _ R Hq) as (H1 & H2 & H3).
  apply wp_bind, wp_get.
  assert (exists_ m S = true) as ->.
  { unfold exists_. destruct (ta_src _ _ _ _ _ _ T) as [t Ht]. unfold stat. rewrite resolve_dir by (apply T || by exists t). by rewrite Ht. }
  simpl. apply wp_bind, wp_eval. rewrite El. apply wp_bind.
  assert (wp (if tty then eval (λ m0, stat_all m0 (map (app S) (text_order (list_to_set l ∖ exclude)))) else ret tt) I (λ r s', r = Ok tt ∧ s' = m) m) as Hw.
  { destruct tty; [|by apply wp_ret]. apply wp_eval. split; [|done].
    assert (∀ q, q ∈ text_order (list_to_set l ∖ exclude) → exists_ m (S ++ q) = true) as He.
    { intros q ?%Hq. by apply Htty. }
    clear -He. induction (text_order _) as [|p r IH]; [done|]. simpl.
    pose proof (He p (elem_of_list_here _ _)) as Hp. unfold exists_ in Hp. destruct (stat true m (S ++ p)); [|done].
    apply IH. intros q Hq. apply He. by right. }
  eapply wp_mono; [exact Hw|]. intros r s' [-> ->]. by eapply transfer_loop_wp.
Qed.
