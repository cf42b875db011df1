(** What [_rm_files] (filelogic.py 754-772) does to the file system. *)
From Coq Require Import QArith Qcanon.
From Verif Require Export TrashProofs.
From stdpp Require Import options.

Definition under (ks : list path) (k : path) : Prop := ∃ q, q ∈ ks ∧ q `prefix_of` k.
Global Instance under_dec ks k : Decision (under ks k).
Proof.
  destruct (decide (Exists (λ q, q `prefix_of` k) ks)) as [H|H]; rewrite Exists_exists in H; [by left|by right].
Defined.
(** Everything at and below the given paths is gone. *)
Record cut (ks : list path) (m0 m : fs) : Prop := {
  ct_wf : wf_fs m;
  ct_gone : ∀ k, under ks k → m !! k = None;
  ct_rest : ∀ k, ¬ under ks k → m !! k = m0 !! k
}.
(** Some of it is gone. *)
Record cutting (ks : list path) (m0 m : fs) : Prop := {
  cg_wf : wf_fs m;
  cg_part : ∀ k, m !! k = m0 !! k ∨ m !! k = None;
  cg_rest : ∀ k, ¬ under ks k → m !! k = m0 !! k
}.
Lemma cut_cutting ks m0 m : cut ks m0 m → cutting ks m0 m.
Proof. intros [H1 H2 H3]. split; [done| |done]. intros k. destruct (decide (under ks k)); auto. Qed.
Lemma under_app ks ks' k : under (ks ++ ks') k ↔ under ks k ∨ under ks' k.
Proof. unfold under. setoid_rewrite elem_of_app. naive_solver. Qed.
Lemma under_one q k : under [q] k ↔ q `prefix_of` k.
Proof. unfold under. setoid_rewrite elem_of_list_singleton. naive_solver. Qed.
Lemma cut_nil m : wf_fs m → cut [] m m.
Proof. intros H. split; [done| |done]. by intros k (q & H'%elem_of_nil & _). Qed.
Lemma cut_snoc ks m0 m q : cut ks m0 m → cut (ks ++ [q]) m0 (without q m).
Proof.
  intros [H1 H2 H3]. split.
  - by apply wf_without.
  - intros k Hk. rewrite without_lookup. destruct (decide _) as [|Hn]; [done|]. apply H2.
    apply under_app in Hk as [?|Hk]; [done|]. by apply under_one in Hk.
  - intros k Hk. rewrite under_app, under_one in Hk. rewrite without_lookup, decide_False by tauto. apply H3. tauto.
Qed.
Lemma cutting_gone ks m0 m q m' : cut ks m0 m → part_gone q m m' → cutting (ks ++ [q]) m0 m'.
Proof.
  intros [H1 H2 H3] (G1 & G2 & G3). split; [done| |].
  - intros k. destruct (decide (under ks k)) as [Hk|Hk].
    + right. destruct (G3 k) as [->|?]; [by apply H2|done].
    + rewrite <-(H3 k Hk). apply G3.
  - intros k Hk. rewrite under_app, under_one in Hk. rewrite G2 by tauto. apply H3. tauto.
Qed.
Lemma cutting_app ks ks' m0 m : cutting ks m0 m → cutting (ks ++ ks') m0 m.
Proof. intros [H1 H2 H3]. split; [done..|]. intros k Hk. apply H3. rewrite under_app in Hk. tauto. Qed.
Lemma without_none q m : wf_fs m → q ≠ [] → m !! q = None → without q m = m.
Proof.
  intros Hwf Hq Hn. apply map_eq. intros k. rewrite without_lookup. destruct (decide _) as [Hp|]; [|done].
  symmetry. by apply (wf_missing_below m q).
Qed.
Lemma cutting_dirs_ok ks m0 m d : cutting ks m0 m → dirs_ok m0 d → dirs_ok m d.
Proof.
  intros [H1 H2 H3] Hok q Hq Hpre. destruct (H2 q) as [E|E]; [|by left].
  destruct (Hok q Hq Hpre) as [Hn|[t Ht]]; [left; congruence|]. right. apply dir_at_lookup; [done|].
  rewrite node_at_ne in Ht by done. rewrite E. eauto.
Qed.
Lemma rm_one_wp (I : fs → Prop) (Q : res unit → fs → Prop) root p m :
  let q := root ++ p in
  wf_fs m → q ≠ [] → valid_comps q → dirs_ok m (parent q) →
  (∀ m', part_gone q m m' → I m') → Q (Ok tt) (without q m) → wp (rm_one root p) I Q m.
Proof.
  intros q Hwf Hq Hv Hok HI HQ. unfold rm_one. fold q. apply wp_catch.
  destruct (m !! q) as [n|] eqn:E.
  - destruct (is_Dir n) eqn:Ed.
    + apply is_Dir_true in Ed as [t ->].
      assert (dir_at m q) as Hd by (apply dir_at_lookup; eauto).
      apply remove_dir_wp; [done|done|]. by apply rmtree_wp.
    + eapply remove_file_wp; [done|done|done| |done]. apply HI. split; [by apply wf_without|]. split.
      * intros k Hk. by rewrite without_lookup, decide_False.
      * intros k. rewrite without_lookup. destruct (decide _); auto.
  - apply remove_gone_wp; [done..|]. apply wp_ret. by rewrite <-(without_none q m).
Qed.
Lemma rm_loop_wp (I : fs → Prop) (Q : res unit → fs → Prop) root (l : list path) m :
  wf_fs m → (∀ p, p ∈ l → root ++ p ≠ [] ∧ valid_comps (root ++ p) ∧ dirs_ok m (parent (root ++ p))) →
  (∀ m', cutting (map (app root) l) m m' → I m') →
  (∀ m', cut (map (app root) l) m m' → Q (Ok tt) m') →
  wp (for_ l (rm_one root)) I Q m.
Proof.
  intros Hwf Hl HI HQ. apply (wp_for_inv I l _ (λ pre m', cut (map (app root) pre) m m')).
  - by apply cut_nil.
  - intros pre p rest m' -> Hc. destruct (Hl p) as (H1 & H2 & H3); [set_solver|]. apply rm_one_wp; [apply Hc|done..| | |].
    + eapply cutting_dirs_ok; [by apply cut_cutting|done].
    + intros m'' Hp. apply HI. change (p :: rest) with ([p] ++ rest). rewrite !map_app, app_assoc. apply cutting_app. simpl.
      by eapply cutting_gone.
    + rewrite map_app. simpl. by apply cut_snoc.
  - done.
Qed.
Lemma rm_files_wp C root X (I : world → Prop) (Q : res unit → world → Prop) w :
  wf_fs (w_fs w) → (∀ l, c_iter C l ≡ₚ l) →
  (∀ p, p ∈ X → root ++ p ≠ [] ∧ valid_comps (root ++ p) ∧ dirs_ok (w_fs w) (parent (root ++ p))) →
  let l := c_iter C (elements X) in
  (∀ m', cutting (map (app root) l) (w_fs w) m' → I (set_fs m' w)) →
  (∀ m', cut (map (app root) l) (w_fs w) m' →
     Q (Ok tt) (set_vrdb (sr_rm (v_rdb w) l) (set_vldb (sl_rm (v_ldb w) l) (set_fs m' w)))) →
  wp (rm_files C X root) I Q w.
Proof.
  intros Hwf Hit HX l HI HQ. unfold rm_files. fold l. apply wp_bind, wp_fsm_for, rm_loop_wp; [done| |done|].
  - intros p Hp. apply HX. unfold l in Hp. rewrite Hit in Hp. by apply elem_of_elements.
  - intros m' Hc. apply wp_bind. unfold ldb_do, rdb_do. apply wp_mut, wp_mut. by apply HQ.
Qed.
