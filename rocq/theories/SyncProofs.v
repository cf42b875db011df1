(** Whole syncs. *)
From Coq Require Import QArith Qcanon.
From Verif Require Export TrashProofs Sync.
From stdpp Require Import options.

Lemma bind_err {S A B} (m : M S A) (k : A → M S B) s t s' x : m s = (t, s', Err x) → bind m k s = (t, s', Err x).
Proof. unfold bind. by intros ->. Qed.

(** ** The remote directory is not there *)
Lemma util_valid C : valid_comps (c_R C) → valid_comps (util_dir C).
Proof. intros H. apply valid_app. split; [done|]. apply (bool_decide_unpack _). vm_compute. exact I. Qed.
Lemma exclude_valid C : valid_comps (c_R C) → valid_comps (exclude_dir C).
Proof. intros H. apply valid_app. split; [by apply util_valid|]. apply (bool_decide_unpack _). vm_compute. exact I. Qed.
Lemma util_ne C : util_dir C ≠ [].
Proof. unfold util_dir, zielen_dir. by destruct (c_R C). Qed.
Lemma exclude_ne C : exclude_dir C ≠ [].
Proof. unfold exclude_dir. by destruct (util_dir C). Qed.
Lemma not_dir_missing m p : p ≠ [] → m !! p = None → ¬ dir_at m p.
Proof. intros Hp Hn [t Ht]. rewrite node_at_ne in Ht by done. congruence. Qed.
Lemma dirs_ok_snoc m (d : path) x : dirs_ok m d → m !! (d ++ [x]) = None → dirs_ok m (d ++ [x]).
Proof.
  intros Hok Hn q Hq Hp. destruct (decide (q = d ++ [x])) as [->|Hne]; [by left|].
  apply Hok; [done|]. apply prefix_parent_strict in Hp; [|done]. by rewrite parent_snoc in Hp.
Qed.
Lemma isdir_missing m p : wf_fs m → valid_comps p → p ≠ [] → dirs_ok m (parent p) → m !! p = None → isdir m p = false.
Proof.
  intros Hwf Hv Hp Hok Hn. unfold isdir, stat. destruct (decide (dir_at m (parent p))) as [Hd|Hd].
  - rewrite resolve_follow; [|done..|by rewrite Hn]. by rewrite node_at_ne, Hn.
  - by rewrite resolve_gone.
Qed.
Lemma sync_unmounted C user w :
  wf_fs (w_fs w) → valid_comps (c_R C) → valid_name (c_id C) → dirs_ok (w_fs w) (c_R C) → w_fs w !! util_dir C = None →
  is_Some (w_last w) → sync_main C user w = ([], w, Err RemoteErr).
Proof.
  intros Hwf Hv Hid Hok Hn [last Hl].
  assert (w_fs w !! exclude_dir C = None) as Hne.
  { eapply wf_missing_below; [done|apply util_ne|done|]. by apply prefix_app_r. }
  assert (dirs_ok (w_fs w) (util_dir C)) as Hoku by by apply dirs_ok_snoc.
  assert (FS.resolve true (w_fs w) (exclude_dir C ++ [c_id C]) = Err FileNotFound) as Hr.
  { apply resolve_gone; [done| | |].
    - apply valid_app. split; [by apply exclude_valid|by apply valid_one].
    - rewrite parent_snoc. by apply dirs_ok_snoc.
    - rewrite parent_snoc. apply not_dir_missing; [apply exclude_ne|done]. }
  assert (isdir (w_fs w) (util_dir C) = false) as Hd.
  { apply isdir_missing; [done|by apply util_valid|apply util_ne| |done]. unfold util_dir, zielen_dir. by rewrite parent_snoc. }
  assert (add_exclude_file C w = ([], w, Err RemoteErr)) as Ha.
  { unfold add_exclude_file, remote_guard, fsm, lift, bind, eval, catch, get.
    rewrite Hr. simpl. unfold throw. rewrite Hd. by destruct w. }
  unfold sync_main. apply bind_err. unfold sync_detect. unfold bind at 1.
  assert (last_sync w = ([], w, Ok last)) as -> by (unfold last_sync, eval; by rewrite Hl).
  by rewrite (bind_err _ _ _ _ _ _ Ha).
Qed.

(** ** The first step: the exclude file *)
Definition exclude_file (C : conf) : path := exclude_dir C ++ [c_id C].
(** The program's directory is in order. *)
Record util_ok (C : conf) (m : fs) : Prop := {
  uo_dir : dir_at m (exclude_dir C);
  uo_id : valid_name (c_id C);
  uo_file : m !! exclude_file C = None ∨ ∃ c t, m !! exclude_file C = Some (File c t)
}.
Definition with_excl (C : conf) (c : list N) (m : fs) : fs := <[exclude_file C := File c (c_now C)]> m.
Lemma exclude_file_ne C : exclude_file C ≠ [].
Proof. unfold exclude_file. by destruct (exclude_dir C). Qed.
Lemma exclude_file_valid C m : wf_fs m → util_ok C m → valid_comps (exclude_file C).
Proof.
  intros Hwf [Hd Hid _]. apply valid_app. split; [|by apply valid_one].
  by eapply wf_dir_valid.
Qed.
Lemma add_exclude_wp C (I : world → Prop) (Q : res unit → world → Prop) w :
  wf_fs (w_fs w) → util_ok C (w_fs w) →
  (∀ i, I (set_fs (with_excl C (take i (c_patterns C)) (w_fs w)) w)) →
  Q (Ok tt) (set_fs (with_excl C (c_patterns C) (w_fs w)) w) → wp (add_exclude_file C) I Q w.
Proof.
  intros Hwf Hu HI HQ. unfold add_exclude_file, remote_guard. apply wp_catch, wp_fsm.
  assert (FS.resolve true (w_fs w) (exclude_file C) = Ok (exclude_file C)) as Hr.
  { apply resolve_follow; [done|by eapply exclude_file_valid| |].
    - unfold exclude_file. rewrite parent_snoc. apply Hu.
    - destruct (uo_file _ _ Hu) as [->|(c & t & ->)]; done. }
  apply wp_bind, wp_eval. fold (exclude_file C). rewrite Hr. apply wp_bind, wp_get.
  rewrite node_at_ne by apply exclude_file_ne.
  assert (wp (write_file (c_now C) (exclude_file C) (c_patterns C)) (λ s, I (set_fs s w))
     (λ r s, match r with Ok _ => Q r (set_fs s w) | Err _ => False end) (w_fs w)) as H by by apply write_file_wp.
  destruct (uo_file _ _ Hu) as [->|(c & t & ->)]; (eapply wp_mono; [exact H|]; intros [[]|e] s Hs; [exact Hs|done]).
Qed.

Lemma with_excl_dir C c m k : wf_fs m → util_ok C m → dir_at m k → dir_at (with_excl C c m) k.
Proof.
  intros Hwf Hu [t Ht]. exists t. destruct (decide (k = [])) as [->|Hk]; [done|].
  rewrite node_at_ne in Ht |- * by done. unfold with_excl. rewrite lookup_insert_ne; [done|].
  intros <-. destruct (uo_file _ _ Hu) as [E|(? & ? & E)]; congruence.
Qed.
Lemma with_excl_mounted C c m : util_ok C m → mounted C m → mounted C (with_excl C c m).
Proof.
  intros Hu [Hwf HL HR Hne]. split; [|by apply with_excl_dir..|done].
  apply wf_insert; [done|by eapply exclude_file_valid|apply exclude_file_ne| |].
  - unfold exclude_file. rewrite parent_snoc. apply Hu.
  - destruct (uo_file _ _ Hu) as [->|(? & ? & ->)]; done.
Qed.
Lemma with_excl_util C c m : wf_fs m → util_ok C m → util_ok C (with_excl C c m).
Proof.
  intros Hwf Hu. split; [apply with_excl_dir; [done..|apply Hu]|apply Hu|]. right. exists c, (c_now C). apply lookup_insert.
Qed.
Lemma exclude_file_app C : exclude_file C = c_R C ++ zielen_dir ++ [lit "exclude"; c_id C].
Proof. unfold exclude_file, exclude_dir, util_dir. by rewrite <-!app_assoc. Qed.
(** Outside the program's directory nothing is changed. *)
Lemma with_excl_other C c m k : ¬ util_dir C `prefix_of` k → with_excl C c m !! k = m !! k.
Proof.
  intros Hk. apply lookup_insert_ne. intros <-. apply Hk. rewrite exclude_file_app. unfold util_dir.
  apply prefix_app, prefix_app_r. done.
Qed.

(** ** A sync that cannot succeed *)
(** The same files, except for the copy of the exclude file, and the same
    stored data. *)
Definition untouched (C : conf) (w w' : world) : Prop :=
  (∀ k, k ≠ exclude_file C → w_fs w' !! k = w_fs w !! k)
  ∧ w_ldb w' = w_ldb w ∧ w_rdb w' = w_rdb w ∧ w_last w' = w_last w.
Lemma topmost_unknown {D} (db : gmap path D) X p : p ∈ X → db !! p = None → topmost db X = Err KeyErr.
Proof.
  intros Hp Hn. unfold topmost. rewrite decide_False; [done|]. intros H. apply H in Hp. by apply elem_of_dom in Hp as [? ?]; congruence.
Qed.
Lemma deleted_unknown ls rs ldb rdb trash p :
  is_Some (ldb !! p) → p ∉ dom ls → rdb !! p = None → deleted ls rs ldb rdb trash = Err KeyErr.
Proof.
  intros Hl Hls Hr. unfold deleted. destruct (topmost_spec ldb (dom ldb ∖ dom rs)) as (Y & -> & _); [set_solver|].
  rewrite (topmost_unknown rdb _ p); [done| |done]. apply elem_of_difference. by rewrite elem_of_dom.
Qed.
Lemma stuck_wp C user w p :
  mounted C (w_fs w) → util_ok C (w_fs w) → FMProofs.fresh w → is_Some (w_last w) →
  is_Some (v_ldb w !! p) → v_rdb w !! p = None → w_fs w !! (c_L C ++ p) = None → exclude_file C ≠ c_L C ++ p →
  wp (sync_main C user) (untouched C w) (λ r w', r = Err KeyErr ∧ untouched C w w' ∧ mounted C (w_fs w') ∧ util_ok C (w_fs w')) w.
Proof.
  intros Hm Hu Hf [last Hl] Hk Hr Hp Hne. unfold sync_main, sync_detect.
  apply wp_bind, wp_bind. unfold last_sync at 1. apply wp_eval. rewrite Hl. apply wp_bind.
  assert (∀ c, untouched C w (set_fs (with_excl C c (w_fs w)) w)) as Hun.
  { intros c. split; [|done]. intros k Hk'. simpl. by apply lookup_insert_ne. }
  apply add_exclude_wp; [apply Hm|done|by intros; apply Hun|].
  set (w1 := set_fs _ w). specialize (Hun (c_patterns C)). fold w1 in Hun.
  assert (mounted C (w_fs w1)) as Hm1 by by apply with_excl_mounted.
  assert (util_ok C (w_fs w1)) as Hu1 by (apply with_excl_util; [apply Hm|done]).
  assert (current C w1) as Hc1 by (apply fresh_current; apply Hf).
  apply wp_bind, (wp_run _ _ _ _ _ _ _ (local_scan_run C w1 Hm1 true (λ _, Hc1))); [constructor|].
  set (w2 := set_lscan _ w1).
  assert (mounted C (w_fs w2)) as Hm2 by exact Hm1.
  assert (current C w2) as Hc2 by by apply current_lscan.
  apply wp_bind, (wp_run _ _ _ _ _ _ _ (remote_scan_run C w2 Hm2 true (λ _, Hc2))); [constructor|].
  set (w3 := set_rscan _ w2).
  assert (mounted C (w_fs w3)) as Hm3 by exact Hm1.
  assert (current C w3) as Hc3 by by apply current_rscan.
  apply wp_bind, (wp_run _ _ _ _ _ _ _ (compute_added_run C w3 Hm3 Hc3)); [constructor|].
  set (w4 := seen3 C w3).
  assert (mounted C (w_fs w4)) as Hm4 by exact Hm1.
  assert (current C w4) as Hc4.
  { split; simpl; by right. }
  assert (deleted (tree (w_fs w4) (c_L C)) (hide_util (tree (w_fs w4) (c_R C))) (v_ldb w4) (v_rdb w4) (c_trash C) = Err KeyErr) as Hd.
  { apply (deleted_unknown _ _ _ _ _ p); [exact Hk| |exact Hr].
    rewrite elem_of_dom_tree. intros [_ [n Hn]]. change (w_fs w4) with (with_excl C (c_patterns C) (w_fs w)) in Hn.
    unfold with_excl in Hn. rewrite lookup_insert_ne in Hn by done. congruence. }
  apply wp_bind, (wp_run _ _ _ _ _ _ _ (compute_deleted_run C w4 Hm4 Hc4 _ Hd)); [constructor|]. done.
Qed.
