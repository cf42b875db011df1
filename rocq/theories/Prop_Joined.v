(** C78: a client that has joined shows the remote directory after its next sync. *)
From Coq Require Import QArith Qcanon.
From Verif Require Export Prop_Two.
From stdpp Require Import options.

(** ** C78 A client that has joined catches up *)
(** A client joins a remote directory that is in order ([left_by]), perhaps after
    interrupted attempts.  Then other clients sync and join, any number of times.
    The first sync of the client leaves the remote directory alone and makes the
    local directory show it.
    Missing: clashes of kinds; patterns that match something; links in the
    remote directory. *)
Theorem C78_first_sync_partial A A' m0 rdb0 w fits m rdb w2 :
  any_order A → any_order A' → left_by A m0 m0 rdb0 → joinable A m0 → join_attempts A m0 rdb0 w →
  let w1 := (init_main A true fits w).1.2 in
  others A (w_fs w1) (w_rdb w1) m rdb →
  (∀ p x n, w_ldb w1 !! p = Some x → r_at A m p = Some n → is_Dir n = ld_dir x) →
  c_L A' = c_L A → c_R A' = c_R A → c_id A' = c_id A → excluded_now A' m = ∅ →
  w_fs w2 = m → w_ldb w2 = w_ldb w1 → w_rdb w2 = rdb → w_last w2 = w_last w1 → reboot w2 = w2 →
  let '(_, w3, r) := sync_main A' (ret tt) w2 in
  r = Ok tt
  ∧ (∀ p, like (r_at A (w_fs w3) p) (r_at A m p))
  ∧ (∀ p, like (view A (w_fs w3) p) (r_at A m p))
  ∧ (∀ k, ¬ below k (c_L A) → ¬ below k (c_R A) → w_fs w3 !! k = m !! k).
Proof.
  intros Ho Ho' Hlb Hj Ha. destruct (attempts_between A m0 rdb0 w Hj Ha) as (Bt & Hl & Hb).
  destruct (join_main_wp A m0 rdb0 w fits Hj (proj1 Ho) Bt Hl Hb) as [_ Hw].
  destruct (init_main A true fits w) as [[tr w1] r]. cbn [fst snd] in *. destruct Hw as [_ J].
  intros Hot Hk EL ER Eid EX E1 E2 E3 E4 Hb2.
  pose proof (joined_clean A m0 rdb0 w1 Hj Hlb J) as Hc. pose proof (joined_quiet A m0 rdb0 w1 Hj Hlb J) as Hq.
  pose proof (joined_left A m0 rdb0 w1 Hj Hlb J) as Hl1.
  pose proof (others_left A (w_fs w1) (w_rdb w1) m rdb (jo_apart _ _ Hj) Hl1 Hot) as Hl2.
  assert (∀ p, ¬ stray A m (w_ldb w1) ∅ p) as Hns.
  { intros p (H1 & H2 & _). rewrite (lb_local _ _ _ _ Hl2) in H1. apply H2. apply (joined_known A m0 rdb0 w1 Hj Hlb J), (joined_some A m0 rdb0 w1 Hj Hlb J), H1. }
  assert (no_clash A m (w_ldb w1) ∅) as Hnc.
  { split; [done| |]; intros p; [|intros q]; intros Hp; by apply Hns in Hp. }
  rewrite (jd_last _ _ _ _ J) in E4.
  pose proof (quiet_sync A A' _ _ _ _ _ _ _ w2 Ho' Hc Hq Hl2 Hnc EL ER Eid EX E1 E2 E3 E4 Hb2) as H.
  destruct (sync_main A' (ret tt) w2) as [[tr3 w3] r3]. destruct H as (-> & H1 & H2 & H3). split_and!; try done.
  intros p. specialize (H2 p). by rewrite decide_False in H2 by apply Hns.
Qed.
Print Assumptions C78_first_sync_partial.

(** The second client is at "/i"; the first one joins; the second one has edited
    "d/a", deleted "f" and made "nb", and syncs; then the first one syncs. *)
Definition listU : list (path * node) :=
  [(pL, Dir 1); (pR, Dir 1); (pR ++ zielen_dir, Dir 1); (exclude_dir exC, Dir 1); (trash_dir exC, Dir 1);
   (exclude_dir exC ++ e "other", File (lit "pat") 2); (trash_dir exC ++ e "old", File (lit "t") 2);
   (pR ++ e "d", Dir 4); (pR ++ e "d" ++ e "a", File (lit "aa") 5); (pR ++ e "f", File (lit "ff") 6); (pR ++ e "g", File (lit "g") 6);
   (pI, Dir 1); (pI ++ e "d", Dir 4); (pI ++ e "d" ++ e "a", File (lit "a3") 35); (pI ++ e "g", Link (lit "/r/g") 6); (pI ++ e "nb", File (lit "nb") 35)]%Z.
Definition mU : fs := list_to_map listU.
Definition rdbU : rmap := list_to_map [(e "d", RData true 7%Z); (e "d" ++ e "a", RData false 8%Z); (e "f", RData false 8%Z); (e "g", RData false 8%Z)].
Definition ldbU : lmap := list_to_map [(e "d", LData true 1%Qc true); known true (e "d" ++ e "a"); known false (e "f"); known false (e "g")].
Definition exU1 : world := (init_main exC true true (joining mU rdbU)).1.2.
Definition exU2 : world := reboot (World (w_fs exU1) ldbU (w_rdb exU1) (Some 10%Z) ∅ ∅ ∅ ∅ None).
Definition exU3 : world := (sync_main exC2 (ret tt) exU2).1.2.
Definition exU4 : world := reboot (World (w_fs exU3) (w_ldb exU1) (w_rdb exU3) (w_last exU1) ∅ ∅ ∅ ∅ None).
Definition exU5 : world := (sync_main exC3 (ret tt) exU4).1.2.
(** Being in order is decidable too. *)
Lemma left_checked A m rdb :
  calm_check A m ∅ rdb 0 ∅ → Forall (λ p, rd_dir <$> rdb !! p = is_Dir <$> r_at A m p) (paths A m ∅ rdb ∅) → left_by A m m rdb.
Proof.
  intros Hc Hf. apply calm_checked in Hc. rewrite Forall_forall in Hf. split; try apply Hc; [done|].
  intros p. destruct (decide (is_Some (rdb !! p) ∨ is_Some (r_at A m p))) as [[Hs|Hs]|Hs].
  - by apply Hf, rdb_paths.
  - by apply Hf, r_paths.
  - destruct (rdb !! p) eqn:E1; [destruct Hs; left; by eexists|]. destruct (r_at A m p) eqn:E2; [destruct Hs; right; by eexists|done].
Qed.
Lemma mU_left : left_by exC mU mU rdbU.
Proof. apply left_checked; decided. Qed.
Lemma mU_joinable : joinable exC mU.
Proof. apply joinable_checked; [done|done|decided|decided|vm_compute; reflexivity]. Qed.
Lemma exU2_clean : clean exC2 (w_fs exU2) (w_ldb exU2) (w_rdb exU2) 10 ∅.
Proof. apply clean_checked. decided. Qed.
Lemma exU_excluded : excluded_now exC2 (w_fs exU2) = ∅.
Proof. decided. Qed.
Lemma exU_others : others exC (w_fs exU1) (w_rdb exU1) (w_fs exU3) (w_rdb exU3).
Proof.
  apply (others_sync exC (w_fs exU1) (w_rdb exU1) exC2 exU2 10); [apply others_none|reflexivity|decided|done| |reflexivity| |].
  - split; [exact (cl_mounted _ _ _ _ _ _ exU2_clean)|reflexivity].
  - rewrite exU_excluded. exact (clean_calm _ _ _ _ _ _ exU2_clean).
  - exact (clean_newer _ _ _ _ _ _ exU2_clean).
Qed.
Example C78_example :
  any_order exC ∧ any_order exC3 ∧ left_by exC mU mU rdbU ∧ joinable exC mU ∧ join_attempts exC mU rdbU (joining mU rdbU)
  ∧ others exC (w_fs exU1) (w_rdb exU1) (w_fs exU3) (w_rdb exU3)
  ∧ (∀ p x n, w_ldb exU1 !! p = Some x → r_at exC (w_fs exU3) p = Some n → is_Dir n = ld_dir x)
  ∧ excluded_now exC3 (w_fs exU3) = ∅ ∧ reboot exU4 = exU4
  ∧ map (l_at exC (w_fs exU1)) [e "d" ++ e "a"; e "f"; e "nb"] = [Some (Link (lit "/r/d/a") 20); Some (Link (lit "/r/f") 20); None]%Z
  ∧ map (view exC (w_fs exU5)) [e "d" ++ e "a"; e "f"; e "g"; e "nb"]
    = [Some (File (lit "a3") 35); None; Some (File (lit "g") 6); Some (File (lit "nb") 35)]%Z.
Proof.
  split; [done|]. split; [done|]. split; [exact mU_left|]. split; [exact mU_joinable|]. split; [apply ja_first|]. split; [exact exU_others|].
  split. { assert (Forall (λ px : path * ldata, ∀ n, r_at exC (w_fs exU3) px.1 = Some n → is_Dir n = ld_dir px.2) (map_to_list (w_ldb exU1))) as Hf by decided.
    rewrite Forall_forall in Hf. intros p x n Hx. apply (Hf (p, x)). by apply elem_of_map_to_list. }
  split; [decided|]. split; [reflexivity|]. split; decided.
Qed.
