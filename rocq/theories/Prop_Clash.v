(** Whole syncs of a state with files that were changed on both sides, for those
    conflicts in which the local version is the newer one: C28 (the conflicts are
    settled and the rest is merged), C38 (a second sync), C39 (a sync that is cut
    off), C73 to C75 (what is kept, with which priorities). *)
From Coq Require Import QArith Qcanon.
From Verif Require Export ClashSync Prop_Local.
From stdpp Require Import options.

(** ** A state with two conflicts *)
(** [c] was edited on both sides, [n.x] is new on both; the rest as in [exN]. *)
Definition listK : list (path * node) := (listN ++
  [(pL ++ e "c", File (lit "mine") 17); (pR ++ e "c", File (lit "theirs") 16);
   (pL ++ e "n.x", File (lit "mine2") 18); (pR ++ e "n.x", File (lit "theirs2") 12)])%Z.
Definition exK : world := world_of (list_to_map listK) (<[e "c" := LData false (1 + 1)%Qc true]> ldbN) (<[e "c" := RData false 9%Z]> rdbN).
Lemma exK_calm : calm exC (w_fs exK) (w_ldb exK) (w_rdb exK) 10 XN.
Proof. apply calm_checked. decided. Qed.
Lemma exK_X : excluded_now exC (w_fs exK) = XN.
Proof. vm_compute. reflexivity. Qed.
Lemma exK_idle : idle exC exK.
Proof. apply idle_of. mounted_now. Qed.
Definition clashes : list path := [e "c"; e "n.x"].
Lemma exK_clash p : clash exC (w_fs exK) (w_ldb exK) (w_rdb exK) 10 p ↔ p ∈ clashes.
Proof.
  split.
  - intros Hc. assert (p ∈ paths exC (w_fs exK) (w_ldb exK) (w_rdb exK) XN) as Hp.
    { destruct Hc as (c & t & c' & t' & Hl & _). apply l_paths. by eexists. }
    assert (Forall (λ p, clash exC (w_fs exK) (w_ldb exK) (w_rdb exK) 10 p → p ∈ clashes) (paths exC (w_fs exK) (w_ldb exK) (w_rdb exK) XN)) as Hf by decided.
    rewrite Forall_forall in Hf. by apply Hf.
  - intros Hp. assert (Forall (clash exC (w_fs exK) (w_ldb exK) (w_rdb exK) 10) clashes) as Hf by decided. rewrite Forall_forall in Hf. by apply Hf.
Qed.
Lemma exK_newer : newer_here exC (w_fs exK) (w_ldb exK) (w_rdb exK) 10.
Proof.
  split.
  - intros p c t c' t' Hc%exK_clash. apply elem_of_cons in Hc as [->|Hc%elem_of_list_singleton]; [|subst p];
      vm_compute; intros [= <- <-] [= <- <-]; done.
  - intros p Hc%exK_clash. apply elem_of_cons in Hc as [->|Hc%elem_of_list_singleton]; [|subst p]; decided.
  - intros _ p _. exists (e "b"). rewrite exK_clash. decided.
Qed.

(** ** C28: a whole sync *)
(** The newer version has the name of the file on both sides and the older one
    the conflict name; everything else is merged as usual; the databases list
    what is in the remote directory; and what was deleted is in the trash.
    Missing: conflicts in which the local version is not the newer one or the
    conflict name is in use (refuted in Prop_Conflict.v), or a file was deleted on
    one side and edited on the other (C42). *)
Theorem C28_sync_partial C w last_sync :
  any_order C → idle C w → w_last w = Some last_sync →
  let X := excluded_now C (w_fs w) in
  let m := w_fs w in
  let clash := clash C m (w_ldb w) (w_rdb w) last_sync in
  calm C m (w_ldb w) (w_rdb w) last_sync X → newer_here C m (w_ldb w) (w_rdb w) last_sync →
  let '(_, w', r) := sync_main C (ret tt) w in
  r = Ok tt
  ∧ (∀ p, clash p → let q := conflict_name C p in
      r_at C (w_fs w') p = l_at C m p
      ∧ (l_at C (w_fs w') p = l_at C m p ∨ ∃ k, l_at C (w_fs w') p = Some (Link (abs_path (c_R C ++ p)) k))
      ∧ r_at C (w_fs w') q = r_at C m p
      ∧ (l_at C (w_fs w') q = r_at C m p ∨ ∃ k, l_at C (w_fs w') q = Some (Link (abs_path (c_R C ++ q)) k)))
  ∧ (∀ p, ¬ clash p → (∀ q, clash q → p ≠ conflict_name C q) →
      like (r_at C (w_fs w') p) (merged C m (w_ldb w) last_sync X p) ∧ shows C m (w_ldb w) last_sync X p (l_at C (w_fs w') p))
  ∧ (∀ p, ld_dir <$> w_ldb w' !! p = is_Dir <$> r_at C (w_fs w') p)
  ∧ (∀ p, rd_dir <$> w_rdb w' !! p = is_Dir <$> r_at C (w_fs w') p)
  ∧ w_last w' = Some (c_end C)
  ∧ trash_holds C m (w_ldb w) (w_fs w')
  ∧ (∀ k, ¬ below k (c_L C) → ¬ below k (c_R C) → w_fs w' !! k = m !! k).
Proof.
  intros Ho Hi Hl X m clash Hc Hn. destruct (idle_clash C w last_sync Ho Hi Hl Hc Hn) as [_ Hw].
  destruct (sync_main C (ret tt) w) as [[tr w'] r]. cbn [fst snd] in Hw. destruct Hw as (-> & [H1 H2 H3 H4 H5 H6 H7] & Hth & Hoc & Hre & Hse).
  split; [done|]. split.
  { intros p Hp q. split_and!; [by apply H1|by apply H2|by apply H3|by apply H4]. }
  split; [intros p Hp Hq; split; [by apply H5|by apply H6]|].
  assert (∀ p, is_Dir <$> merged C (mv C m (w_ldb w) (w_rdb w) last_sync) (lv C m (w_ldb w) (w_rdb w) last_sync) last_sync X p = is_Dir <$> r_at C (w_fs w') p) as E.
  { intros p. apply like_kind, (oc_remote _ _ _ _ _ _ Hoc). }
  split; [intros p; rewrite <-E; apply (re_ldb _ _ _ _ _ Hre)|]. split; [intros p; rewrite <-E; apply (re_rdb _ _ _ _ _ Hre)|].
  split; [apply (re_last _ _ _ _ _ Hre)|]. done.
Qed.
Print Assumptions C28_sync_partial.
Example C28_sync_example :
  any_order exC ∧ idle exC exK ∧ w_last exK = Some 10%Z ∧ excluded_now exC (w_fs exK) = XN
  ∧ calm exC (w_fs exK) (w_ldb exK) (w_rdb exK) 10 XN ∧ newer_here exC (w_fs exK) (w_ldb exK) (w_rdb exK) 10
  ∧ (∀ p, clash exC (w_fs exK) (w_ldb exK) (w_rdb exK) 10 p ↔ p = e "c" ∨ p = e "n.x")
  ∧ conflict_name exC (e "n.x") = e "n_conflict-20180102-030405.x"
  ∧ merged exC (w_fs exK) (w_ldb exK) 10 XN (e "m") = Some (File (lit "m2") 15)
  ∧ merged exC (w_fs exK) (w_ldb exK) 10 XN (e "n2") = Some (File (lit "n2") 14)
  ∧ trashed exC (w_fs exK) (w_ldb exK) (e "del").
Proof.
  split; [done|]. split; [apply exK_idle|]. split; [done|]. split; [apply exK_X|]. split; [apply exK_calm|]. split; [apply exK_newer|].
  split; [|split; [vm_compute; reflexivity|split; [vm_compute; reflexivity|split; [vm_compute; reflexivity|decided]]]].
  intros p. rewrite exK_clash. unfold clashes. rewrite elem_of_cons, elem_of_list_singleton. done.
Qed.

(** ** C38: a second sync *)
(** A conflict is settled once and for all: the next sync changes nothing.
    Missing: as above, and files with modification times in the future. *)
Theorem C38_conflict_partial C C' w last_sync :
  any_order C → any_order C' → idle C w → w_last w = Some last_sync →
  let X := excluded_now C (w_fs w) in
  calm C (w_fs w) (w_ldb w) (w_rdb w) last_sync X → newer_here C (w_fs w) (w_ldb w) (w_rdb w) last_sync →
  (c_now C <= c_end C)%Z →
  (∀ p c t, l_at C (w_fs w) p = Some (File c t) ∨ r_at C (w_fs w) p = Some (File c t) → (t <= c_end C)%Z) →
  (∀ p d, w_rdb w !! p = Some d → (rd_last d <= c_end C)%Z) →
  c_L C' = c_L C → c_R C' = c_R C → c_id C' = c_id C →
  let '(_, w1, r1) := sync_main C (ret tt) w in
  excluded_now C' (w_fs w1) = X →
  let '(_, w2, r2) := sync_main C' (ret tt) (reboot w1) in
  r1 = Ok tt ∧ r2 = Ok tt
  ∧ (∀ p, like (r_at C (w_fs w2) p) (r_at C (w_fs w1) p))
  ∧ (∀ p, like (view C (w_fs w2) p) (view C (w_fs w1) p))
  ∧ (∀ p, ld_dir <$> w_ldb w2 !! p = ld_dir <$> w_ldb w1 !! p) ∧ (∀ p, rd_dir <$> w_rdb w2 !! p = rd_dir <$> w_rdb w1 !! p).
Proof.
  intros Ho Ho' Hi Hl X Hc Hn Hnow Hmt Hrt EL ER Eid. pose proof (idle_clash C w last_sync Ho Hi Hl Hc Hn) as [_ Hw].
  destruct (sync_main C (ret tt) w) as [[tr w1] r1]. cbn [fst snd] in Hw. destruct Hw as (-> & _ & _ & Hoc & Hre & _). fold X in Hoc, Hre. intros EX.
  pose proof (clean_v _ _ _ _ _ _ Hc Hn) as Hcv. set (wv := wv C w last_sync) in *.
  assert (∀ p c t, merged C (w_fs wv) (w_ldb wv) last_sync X p = Some (File c t) → (t <= c_end C)%Z) as Hmt'.
  { intros p c t Hm. destruct (decide (clash C (w_fs w) (w_ldb w) (w_rdb w) last_sync p)) as [Hp|Hp].
    { cbn [w_fs w_ldb wv MergeClashRun.wv] in Hm. rewrite (merged_v_clash _ _ _ _ _ _ Hc Hn) in Hm by done. eauto. }
    destruct (decide (named C (w_fs w) (w_ldb w) (w_rdb w) last_sync p)) as [(q & Hq & ->)|Hd].
    { cbn [w_fs w_ldb wv MergeClashRun.wv] in Hm. rewrite (merged_v_cn _ _ _ _ _ _ Hc Hn) in Hm by done. eauto. }
    assert (r_at C (w_fs wv) p = r_at C (w_fs w) p) as Er by by apply (r_v _ _ _ _ _ _ Hc Hn).
    assert (l_at C (w_fs wv) p = l_at C (w_fs w) p) as El by by apply (l_v _ _ _ _ _ _ Hc Hn).
    apply (Hmt p c t). rewrite <-Er, <-El. destruct (merged_inv _ _ _ _ _ _ Hcv p _ Hm) as [(_ & _ & ?)|[(_ & _ & ?)|(_ & _ & ?)]]; auto. }
  assert (∀ p d, w_rdb wv !! p = Some d → (rd_last d <= c_end C)%Z) as Hrt'.
  { intros p d. cbn [w_rdb wv MergeClashRun.wv]. rewrite rv_lookup. case_decide; [done|]. apply Hrt. }
  destruct Ho as [Hit Hrows].
  assert (w_last wv = Some last_sync) as Hlv by done. assert (FMProofs.fresh wv) as Hfv by done.
  assert (v_ldb wv = w_ldb wv) as Hvl by done. assert (v_rdb wv = w_rdb wv) as Hvr by done.
  change (clean C (w_fs wv) (w_ldb wv) (w_rdb wv) last_sync X) in Hcv. change (outcome C (w_fs wv) (w_ldb wv) last_sync X (w_fs w1)) in Hoc. clearbody wv.
  pose proof (clean_again C wv last_sync X Hcv Hit Hrows Hvl Hvr Hfv Hlv w1 Hoc Hre Hnow Hmt' Hrt') as Hc1.
  assert (clean C' (w_fs w1) (w_ldb w1) (w_rdb w1) (c_end C) (excluded_now C' (w_fs w1))) as Hc2.
  { rewrite EX. apply (clean_conf C C'); [done..| | |done]; intros p.
    - by apply (new_again C wv last_sync X Hcv Hit Hrows Hvl Hvr Hfv Hlv w1 Hoc Hre Hnow Hmt' Hrt').
    - by apply (gone_l_again C wv last_sync X Hcv Hit Hrows Hvl Hvr Hfv Hlv w1 Hoc Hre Hnow Hmt' Hrt'). }
  assert (idle C' (reboot w1)) as Hi1. { split; [|done]. apply Hc2. }
  destruct (idle_sync C' (reboot w1) (c_end C) Ho' Hi1 (re_last _ _ _ _ _ Hre) Hc2) as [_ Hw2].
  destruct (sync_main C' (ret tt) (reboot w1)) as [[tr2 w2] r2]. cbn [fst snd] in Hw2. destruct Hw2 as (-> & Hoc2 & _ & Hre2 & _).
  pose proof (merged_again C wv last_sync X Hcv Hit Hrows Hvl Hvr Hfv Hlv w1 Hoc Hre Hnow Hmt' Hrt') as HM. pose proof (stray_again C wv last_sync X Hcv Hit Hrows Hvl Hvr Hfv Hlv w1 Hoc Hre Hnow Hmt' Hrt') as HS.
  change (w_fs (reboot w1)) with (w_fs w1) in *. change (w_ldb (reboot w1)) with (w_ldb w1) in *. rewrite EX in Hoc2, Hre2, Hc2.
  pose proof (view_outcome _ _ _ _ _ _ _ Hcv Hoc) as HV1. pose proof (view_outcome _ _ _ _ _ _ _ Hc2 Hoc2) as HV2.
  destruct (conf_same C C' EL ER) as (Er & Ev & Es & Em).
  split; [done|]. split; [done|]. split; [|split; [|split]].
  - intros p. pose proof (oc_remote _ _ _ _ _ _ Hoc2 p) as H2. rewrite Em, Er in H2. eapply like_trans; [exact H2|].
    eapply like_trans; [apply HM|]. apply like_sym, (oc_remote _ _ _ _ _ _ Hoc).
  - intros p. specialize (HV1 p). specialize (HV2 p). rewrite Em, !Ev in HV2. destruct (decide (stray C' _ _ X p)) as [Hs|Hs].
    + done.
    + rewrite Es, HS in Hs. rewrite decide_False in HV1 by done. eapply like_trans; [exact HV2|].
      eapply like_trans; [apply HM|]. by apply like_sym.
  - intros p. rewrite (re_ldb _ _ _ _ _ Hre p), (re_ldb _ _ _ _ _ Hre2 p). cbn [reboot w_fs w_ldb]. rewrite Em. symmetry; apply like_kind, HM.
  - intros p. rewrite (re_rdb _ _ _ _ _ Hre p), (re_rdb _ _ _ _ _ Hre2 p). cbn [reboot w_fs w_ldb]. rewrite Em. symmetry; apply like_kind, HM.
Qed.
Print Assumptions C38_conflict_partial.
Lemma exK_times : (∀ p c t, l_at exC (w_fs exK) p = Some (File c t) ∨ r_at exC (w_fs exK) p = Some (File c t) → (t <= c_end exC)%Z)
  ∧ (∀ p d, w_rdb exK !! p = Some d → (rd_last d <= c_end exC)%Z).
Proof.
  split.
  - assert (Forall (λ kn, ((λ n, match n with File _ t => t | Link _ t => t | Dir t => t end) kn.2 <= 21)%Z) listK) as Hf by decided.
    rewrite Forall_forall in Hf. intros p c t Hn. assert (∃ k, w_fs exK !! k = Some (File c t)) as [k Hk].
    { unfold l_at, r_at in Hn. destruct Hn as [Hn|Hn]; case_decide; [discriminate Hn|by eexists|discriminate Hn|by eexists]. }
    apply elem_of_list_to_map_2 in Hk. exact (Hf _ Hk).
  - intros p d Hd. assert (Forall (λ pd : path * rdata, (rd_last pd.2 <= 21)%Z) (map_to_list (w_rdb exK))) as Hf by decided. rewrite Forall_forall in Hf.
    apply (Hf (p, d)). by apply elem_of_map_to_list.
Qed.
Example C38_conflict_example :
  any_order exC ∧ any_order (at_ exC 8 40 41) ∧ idle exC exK ∧ w_last exK = Some 10%Z ∧ excluded_now exC (w_fs exK) = XN
  ∧ calm exC (w_fs exK) (w_ldb exK) (w_rdb exK) 10 XN ∧ newer_here exC (w_fs exK) (w_ldb exK) (w_rdb exK) 10
  ∧ clash exC (w_fs exK) (w_ldb exK) (w_rdb exK) 10 (e "c")
  ∧ (c_now exC <= c_end exC)%Z
  ∧ (∀ p c t, l_at exC (w_fs exK) p = Some (File c t) ∨ r_at exC (w_fs exK) p = Some (File c t) → (t <= c_end exC)%Z)
  ∧ (∀ p d, w_rdb exK !! p = Some d → (rd_last d <= c_end exC)%Z)
  ∧ let '(_, w1, _) := sync_main exC (ret tt) exK in excluded_now (at_ exC 8 40 41) (w_fs w1) = XN.
Proof.
  split; [done|]. split; [done|]. split; [apply exK_idle|]. split; [done|]. split; [apply exK_X|]. split; [apply exK_calm|]. split; [apply exK_newer|].
  split; [apply exK_clash; by left|]. split; [done|]. split; [apply exK_times|]. split; [apply exK_times|].
  assert (let x := sync_main exC (ret tt) exK in bool_decide (excluded_now (at_ exC 8 40 41) (w_fs x.1.2) = XN) = true) as Hx by (vm_compute; reflexivity).
  cbv zeta in Hx. destruct (sync_main exC (ret tt) exK) as [[tr w1] r]. by apply bool_decide_eq_true in Hx.
Qed.

(** ** C39: a sync that is cut off *)
(** Whenever a sync with conflicts is cut off, both versions of each file in
    conflict are still there, untouched, and everything else as in
    C39_intact_partial.
    Missing: as above, and what the next sync makes of it (refuted below). *)
Theorem C39_conflict_partial C w last_sync :
  any_order C → idle C w → w_last w = Some last_sync →
  let X := excluded_now C (w_fs w) in
  let m := w_fs w in
  let clash := clash C m (w_ldb w) (w_rdb w) last_sync in
  calm C m (w_ldb w) (w_rdb w) last_sync X → newer_here C m (w_ldb w) (w_rdb w) last_sync →
  let '(tr, _, _) := sync_main C (ret tt) w in
  ∀ w1, w1 ∈ tr →
    (∀ p, clash p →
      (w_fs w1 !! (c_R C ++ p) = l_at C m p ∨ w_fs w1 !! (c_L C ++ p) = l_at C m p)
      ∧ (w_fs w1 !! (c_R C ++ p) = r_at C m p ∨ w_fs w1 !! (c_R C ++ conflict_name C p) = r_at C m p ∨ w_fs w1 !! (c_L C ++ conflict_name C p) = r_at C m p))
    ∧ (∀ p c t, ¬ clash p → merged C m (w_ldb w) last_sync X p = Some (File c t) →
      w_fs w1 !! (c_R C ++ p) = Some (File c t) ∨ w_fs w1 !! (c_L C ++ p) = Some (File c t))
    ∧ (∀ p, stray C m (w_ldb w) X p → w_fs w1 !! (c_L C ++ p) = m !! (c_L C ++ p))
    ∧ ((∀ d, c_cleanup C = Some d → (0 <= d)%Z) → ∀ p x s c t,
        trashed C m (w_ldb w) p → last p = Some x → r_at C m (p ++ s) = Some (File c t) →
        w_fs w1 !! (c_R C ++ p ++ s) = Some (File c t) ∨ ∃ t', w_fs w1 !! (trash_dir C ++ x :: s) = Some (File c t'))
    ∧ (∀ k, ¬ below k (c_L C) → ¬ below k (c_R C) → w_fs w1 !! k = m !! k)
    ∧ ((w_ldb w1 = w_ldb w ∧ w_rdb w1 = w_rdb w ∧ w_last w1 = w_last w)
       ∨ ∀ p, clash p → r_at C (w_fs w1) p = l_at C m p ∧ r_at C (w_fs w1) (conflict_name C p) = r_at C m p).
Proof.
  intros Ho Hi Hl X m clash Hc Hn. destruct (idle_clash C w last_sync Ho Hi Hl Hc Hn) as [Ht _].
  destruct (sync_main C (ret tt) w) as [[tr w'] r]. cbn [fst snd] in Ht. intros w1 Hw1. rewrite Forall_forall in Ht. specialize (Ht _ Hw1).
  destruct Ht as [[H1 H2 H3 H4 H5 H6] Ha]. split; [intros p Hp; split; [by apply H4|by apply H5]|]. split; [done|].
  split. { intros p Hp. etrans; [by apply H2|]. destruct Hp as ([n Hp] & _). unfold l_at in Hp |- *. subst m. by case_decide. }
  split; [done|]. split; [done|]. destruct Ha as [Ha|[R1 _ R3 _ _ _ _]]; [left; done|right]. intros p Hp. split; [by apply R1|by apply R3].
Qed.
Print Assumptions C39_conflict_partial.
Example C39_conflict_example :
  any_order exC ∧ idle exC exK ∧ w_last exK = Some 10%Z ∧ excluded_now exC (w_fs exK) = XN
  ∧ calm exC (w_fs exK) (w_ldb exK) (w_rdb exK) 10 XN ∧ newer_here exC (w_fs exK) (w_ldb exK) (w_rdb exK) 10
  ∧ clash exC (w_fs exK) (w_ldb exK) (w_rdb exK) 10 (e "c") ∧ l_at exC (w_fs exK) (e "c") = Some (File (lit "mine") 17)
  ∧ r_at exC (w_fs exK) (e "c") = Some (File (lit "theirs") 16)
  ∧ merged exC (w_fs exK) (w_ldb exK) 10 XN (e "m") = Some (File (lit "m2") 15) ∧ stray exC (w_fs exK) (w_ldb exK) XN (e "x")
  ∧ (∀ d, c_cleanup exC = Some d → (0 <= d)%Z) ∧ trashed exC (w_fs exK) (w_ldb exK) (e "del")
  ∧ 20 ≤ length (sync_main exC (ret tt) exK).1.1.
Proof.
  split; [done|]. split; [apply exK_idle|]. split; [done|]. split; [apply exK_X|]. split; [apply exK_calm|]. split; [apply exK_newer|].
  split; [apply exK_clash; by left|]. split; [vm_compute; reflexivity|]. split; [vm_compute; reflexivity|]. split; [vm_compute; reflexivity|].
  split; [decided|]. split; [by intros d [= <-]|]. split; [decided|]. apply Nat.leb_le. vm_compute. reflexivity.
Qed.

(** If the sync is cut off when the older version has been moved away and the
    newer one not been uploaded, then the file counts as deleted by another
    client, and the next sync destroys the newer version. *)
Definition exJ : world := upd (pL ++ e "a") (File (lit "mine") 15) (upd (pR ++ e "a") (File (lit "theirs") 14) exM).
(** A minute later. *)
Definition later (C : conf) : conf := {|
  c_L := c_L C; c_R := c_R C; c_limit := c_limit C; c_account := c_account C; c_inflate := c_inflate C; c_trash := c_trash C;
  c_cleanup := c_cleanup C; c_id := c_id C; c_patterns := c_patterns C; c_glob := c_glob C; c_block := c_block C; c_blocks := c_blocks C;
  c_now := c_now C + 60; c_end := c_end C + 60;
  c_dt := {| dt_year := 2018; dt_month := 1; dt_day := 2; dt_hour := 3; dt_min := 5; dt_sec := 5 |};
  c_iter := c_iter C; c_rows := c_rows C; c_tty := c_tty C |}%Z.
Lemma exJ_clash p : clash exC (w_fs exJ) (w_ldb exJ) (w_rdb exJ) 10 p ↔ p = e "a".
Proof.
  split.
  - intros Hc. assert (p ∈ paths exC (w_fs exJ) (w_ldb exJ) (w_rdb exJ) ∅) as Hp.
    { destruct Hc as (c & t & c' & t' & Hl & _). apply l_paths. by eexists. }
    assert (Forall (λ p, clash exC (w_fs exJ) (w_ldb exJ) (w_rdb exJ) 10 p → p = e "a") (paths exC (w_fs exJ) (w_ldb exJ) (w_rdb exJ) ∅)) as Hf by decided.
    rewrite Forall_forall in Hf. by apply Hf.
  - intros ->. decided.
Qed.
Lemma exJ_newer : newer_here exC (w_fs exJ) (w_ldb exJ) (w_rdb exJ) 10.
Proof.
  split.
  - intros p c t c' t' ->%exJ_clash. vm_compute. intros [= <- <-] [= <- <-]. done.
  - intros p ->%exJ_clash. decided.
  - intros _ p _. exists (e "b"). rewrite exJ_clash. decided.
Qed.
Theorem C39_conflict_refuted :
  ∃ C C' w w1 p c t, any_order C ∧ any_order C' ∧ idle C w ∧ w_last w = Some 10%Z ∧ excluded_now C (w_fs w) = ∅
    ∧ calm C (w_fs w) (w_ldb w) (w_rdb w) 10 ∅ ∧ newer_here C (w_fs w) (w_ldb w) (w_rdb w) 10
    ∧ l_at C (w_fs w) p = Some (File c t)
    ∧ w1 ∈ (sync_main C (ret tt) w).1.1
    ∧ let '(_, w', _) := sync_main C' (ret tt) (reboot w1) in destroyed c (w_fs w) (w_fs w').
Proof.
  exists exC, (later exC), exJ.
  destruct (crash_witness exC (later exC) (ret tt) exJ (λ w, w) 2 (λ _ _ w', lost (lit "mine") (w_fs w'))) as (w1 & Hw & Hx);
    [vm_compute; reflexivity|]. exists w1, (e "a"), (lit "mine"), 15%Z.
  split; [done|]. split; [done|]. split; [apply idle_of; mounted_now|]. split; [done|]. split; [vm_compute; reflexivity|].
  split; [apply calm_checked; decided|]. split; [apply exJ_newer|]. split; [vm_compute; reflexivity|]. split; [exact Hw|].
  destruct (sync_main (later exC) (ret tt) (reboot w1)) as [[tr w'] r]. split; [|by apply lost_spec].
  exists (pL ++ e "a"), 15%Z. vm_compute. reflexivity.
Qed.
Print Assumptions C39_conflict_refuted.

(** ** C73 and C74: what is kept here *)
(** The limit is kept also when there were conflicts. *)
Theorem C73_conflict_partial C w last_sync :
  any_order C → idle C w → w_last w = Some last_sync →
  let X := excluded_now C (w_fs w) in
  calm C (w_fs w) (w_ldb w) (w_rdb w) last_sync X → newer_here C (w_fs w) (w_ldb w) (w_rdb w) last_sync →
  (∀ p n, 0 <= c_blocks C p n)%Z →
  let '(_, w', r) := sync_main C (ret tt) w in
  r = Ok tt ∧
  (copies C w' ≠ ∅ →
    local_usage C (w_fs w') (copies C w' ∪ X) + Z.of_nat (size (linked_ C w')) * c_block C <= c_limit C)%Z.
Proof.
  intros Ho Hi Hl X Hc Hnh Hn. destruct (idle_clash C w last_sync Ho Hi Hl Hc Hnh) as [_ Hw].
  destruct (sync_main C (ret tt) w) as [[tr w'] r]. cbn [fst snd] in Hw. destruct Hw as (-> & _ & _ & _ & _ & Hse).
  split; [done|]. intros Hne. apply (se_limit _ _ _ _ _ _ _ Hse); [apply elem_of_copies|apply elem_of_linked|done|done].
Qed.
Print Assumptions C73_conflict_partial.
(** The flags are as without conflicts; a conflict file counts as new. *)
Theorem C74_conflict_partial C w last_sync :
  any_order C → idle C w → w_last w = Some last_sync →
  let X := excluded_now C (w_fs w) in
  calm C (w_fs w) (w_ldb w) (w_rdb w) last_sync X → newer_here C (w_fs w) (w_ldb w) (w_rdb w) last_sync →
  let '(_, w', r) := sync_main C (ret tt) w in
  r = Ok tt ∧ ∀ p x, w_ldb w' !! p = Some x →
    match l_at C (w_fs w') p with
    | Some (File _ _) => ld_local x = true ↔ is_Some (l_at C (w_fs w) p)
    | Some (Link _ _) => ld_local x = true ↔
        ∃ x0 t k, w_ldb w !! p = Some x0 ∧ ld_local x0 = true ∧ l_at C (w_fs w) p = Some (Link t k)
    | _ => True
    end.
Proof.
  intros Ho Hi Hl X Hc Hnh. destruct (idle_clash C w last_sync Ho Hi Hl Hc Hnh) as [_ Hw].
  destruct (sync_main C (ret tt) w) as [[tr w'] r]. cbn [fst snd] in Hw. destruct Hw as (-> & _ & _ & _ & _ & Hse).
  split; [done|]. intros p x Hx.
  assert (l_at C (w_fs (wv C w last_sync)) p = l_at C (w_fs w) p) as El by by apply (l_v _ _ _ _ _ _ Hc Hnh).
  destruct (l_at C (w_fs w') p) as [[c t|t k|t]|] eqn:E; [|..|done].
  - rewrite (se_file _ _ _ _ _ _ _ Hse p x c t Hx E). by rewrite El.
  - rewrite (se_link _ _ _ _ _ _ _ Hse p x t k Hx E). setoid_rewrite El. cbn [w_ldb wv]. rewrite lv_lookup. case_decide as Hp; [|done].
    destruct Hp as (c & t0 & _ & _ & Hl' & _). split; [by intros (? & ? & ? & ? & _)|]. intros (? & ? & ? & _ & _ & ?). congruence.
  - done.
Qed.
Print Assumptions C74_conflict_partial.
(** "c" was a file and becomes a link, "d/a" is kept. *)
Lemma exLK_calm : calm exL (w_fs exK) (w_ldb exK) (w_rdb exK) 10 XN.
Proof. apply calm_checked. decided. Qed.
Lemma exLK_newer : newer_here exL (w_fs exK) (w_ldb exK) (w_rdb exK) 10.
Proof. destruct exK_newer as [H1 H2 H3]. split; [exact H1|exact H2|exact H3]. Qed.
Example C73_C74_conflict_example :
  any_order exL ∧ idle exL exK ∧ w_last exK = Some 10%Z ∧ excluded_now exL (w_fs exK) = XN
  ∧ calm exL (w_fs exK) (w_ldb exK) (w_rdb exK) 10 XN ∧ newer_here exL (w_fs exK) (w_ldb exK) (w_rdb exK) 10
  ∧ (∀ p n, 0 <= c_blocks exL p n)%Z
  ∧ let '(_, w', _) := sync_main exL (ret tt) exK in
    (size (copies exL w') = 2 ∧ size (linked_ exL w') = 8)%nat
    ∧ (is_link (l_at exL (w_fs w') (e "c")), flag w' (e "c")) = (true, Some false)
    ∧ (is_file (l_at exL (w_fs w') (e "d" ++ e "a")), flag w' (e "d" ++ e "a")) = (true, Some true).
Proof.
  split; [done|]. split; [apply idle_of; mounted_now|]. split; [done|]. split; [vm_compute; reflexivity|]. split; [apply exLK_calm|]. split; [apply exLK_newer|].
  split; [intros p []; cbn; lia|]. vm_compute. auto.
Qed.

(** ** C75: priorities *)
(** The files that are not in conflict keep their priorities, and the older
    versions start from zero.
    Missing: as above, and the files in conflict (refuted below). *)
Theorem C75_conflict_partial C w last_sync :
  any_order C → idle C w → w_last w = Some last_sync →
  let X := excluded_now C (w_fs w) in
  let clash := clash C (w_fs w) (w_ldb w) (w_rdb w) last_sync in
  calm C (w_fs w) (w_ldb w) (w_rdb w) last_sync X → newer_here C (w_fs w) (w_ldb w) (w_rdb w) last_sync →
  let '(_, w', r) := sync_main C (ret tt) w in
  r = Ok tt
  ∧ (∀ p x, clash p → w_ldb w' !! conflict_name C p = Some x → ld_prio x = 0%Qc)
  ∧ ∀ p x, ¬ clash p → (∀ q, clash q → p ≠ conflict_name C q) → w_ldb w' !! p = Some x → ld_dir x = false →
    match w_ldb w !! p with
    | Some x0 => ld_prio x = ld_prio x0
    | None =>
        (c_inflate C = true ∧ is_Some (l_at C (w_fs w) p) ∧ highest (w_ldb w) (ld_prio x))
        ∨ (¬ (c_inflate C = true ∧ is_Some (l_at C (w_fs w) p)) ∧ ld_prio x = 0%Qc)
    end.
Proof.
  intros Ho Hi Hl X clash Hc Hnh. destruct (idle_clash C w last_sync Ho Hi Hl Hc Hnh) as [_ Hw].
  destruct (sync_main C (ret tt) w) as [[tr w'] r]. cbn [fst snd] in Hw. destruct Hw as (-> & _ & _ & Hoc & Hre & Hse).
  split; [done|]. split.
  - intros p x Hp Hx. pose proof (re_ldb _ _ _ _ _ Hre (conflict_name C p)) as Hm. cbn [w_fs w_ldb wv] in Hm. rewrite Hx in Hm.
    rewrite (merged_v_cn _ _ _ _ _ _ Hc Hnh) in Hm by done. destruct (clash_at _ _ _ _ _ _ Hc Hnh p Hp) as (_ & _ & c & t & c' & t' & _ & Er). rewrite Er in Hm. injection Hm as Hd.
    destruct (se_prio _ _ _ _ _ _ _ Hse _ x Hx Hd) as (x1 & H & ->). unfold crow in H.
    assert (named C (w_fs w) (w_ldb w) (w_rdb w) last_sync (conflict_name C p)) as Hnm by by exists p.
    destruct (named_at _ _ _ _ _ _ Hc Hnh _ Hnm) as (_ & _ & _ & Hncl & _). rewrite decide_False, decide_True in H by done. by subst x1.
  - intros p x Hncl Hnn Hx Hd. destruct (se_prio _ _ _ _ _ _ _ Hse p x Hx Hd) as (x1 & H & ->). fold X in H. unfold crow in H.
    assert (¬ named C (w_fs w) (w_ldb w) (w_rdb w) last_sync p) as Hnm by (intros (q & Hq & ->); by apply (Hnn q)).
    rewrite decide_False, decide_False in H by done. unfold lrow in H.
    destruct (w_ldb w !! p) as [x0|] eqn:E; [by subst|]. destruct H as (_ & H1 & H2).
    pose proof (re_ldb _ _ _ _ _ Hre p) as Hm. rewrite Hx in Hm. cbn [w_fs w_ldb wv] in Hm.
    assert (¬ stray C (w_fs w) (w_ldb w) X p) as Hns.
    { intros Hs. rewrite <-(stray_v _ _ _ _ _ _ Hc Hnh) in Hs. rewrite (merged_not_stray _ _ _ _ _ _ (clean_v _ _ _ _ _ _ Hc Hnh)) in Hm by done. done. }
    destruct (decide (c_inflate C = true ∧ is_Some (l_at C (w_fs w) p))) as [[Hf Ha]|Hn].
    + left. split; [done|]. split; [done|]. apply sl_max_highest, H1; [done|]. split; [done|]. split; [|done].
      unfold Merge.known. rewrite E. by intros [].
    + right. split; [done|]. apply H2. intros [Hf [Ha _]]. by apply Hn.
Qed.
Print Assumptions C75_conflict_partial.
Example C75_conflict_example :
  any_order exC ∧ idle exC exK ∧ w_last exK = Some 10%Z ∧ excluded_now exC (w_fs exK) = XN
  ∧ calm exC (w_fs exK) (w_ldb exK) (w_rdb exK) 10 XN ∧ newer_here exC (w_fs exK) (w_ldb exK) (w_rdb exK) 10
  ∧ clash exC (w_fs exK) (w_ldb exK) (w_rdb exK) 10 (e "c")
  ∧ (prio exK (e "b"), prio exK (e "nd" ++ e "f"), prio exK (e "n2")) = (Some 1%Qc, None, None)
  ∧ let '(_, w', _) := sync_main exC (ret tt) exK in
    (prio w' (e "b"), prio w' (e "nd" ++ e "f"), prio w' (e "n2"), prio w' (e "c_conflict-20180102-030405")) = (Some 1%Qc, Some (1 + 1)%Qc, Some 0%Qc, Some 0%Qc).
Proof.
  split; [done|]. split; [apply exK_idle|]. split; [done|]. split; [apply exK_X|]. split; [apply exK_calm|]. split; [apply exK_newer|].
  split; [apply exK_clash; by left|]. split; vm_compute; reflexivity.
Qed.
(** The priority of a file in conflict is forgotten: renaming deletes its row
    (filelogic.py 723) and the row is made again when the file is uploaded. *)
Definition exP : conf := {|
  c_L := pL; c_R := pR; c_limit := 100000; c_account := true; c_inflate := false; c_trash := true;
  c_cleanup := Some 8%Z; c_id := lit "me"; c_patterns := lit "x"; c_glob := ex_glob; c_block := c_block exC; c_blocks := c_blocks exC;
  c_now := 20; c_end := 21; c_dt := ex_dt; c_iter := id; c_rows := id; c_tty := false |}.
Theorem C75_conflict_refuted :
  ∃ C w p x, any_order C ∧ idle C w ∧ w_last w = Some 10%Z
    ∧ calm C (w_fs w) (w_ldb w) (w_rdb w) 10 (excluded_now C (w_fs w)) ∧ newer_here C (w_fs w) (w_ldb w) (w_rdb w) 10
    ∧ w_ldb w !! p = Some x ∧ (0 < ld_prio x)%Qc
    ∧ let '(_, w', r) := sync_main C (ret tt) w in r = Ok tt ∧ prio w' p = Some 0%Qc.
Proof.
  exists exP, exJ, (e "a"), (LData false 1%Qc true). split; [done|]. split; [apply idle_of; mounted_now|]. split; [done|].
  split. { assert (excluded_now exP (w_fs exJ) = ∅) as -> by decided. apply calm_checked. decided. }
  split. { destruct exJ_newer as [H1 H2 H3]. split; [exact H1|exact H2|done]. }
  split; [vm_compute; reflexivity|]. split; [by apply Qclt_alt|].
  assert (let '(_, w', r) := sync_main exP (ret tt) exJ in is_ok r && bool_decide (prio w' (e "a") = Some 0%Qc) = true) as Hx.
  { apply (run_witness exP (ret tt) exJ (λ r w', is_ok r && bool_decide (prio w' (e "a") = Some 0%Qc))). vm_compute. reflexivity. }
  destruct (sync_main exP (ret tt) exJ) as [[tr w'] r]. apply andb_true_iff in Hx as [H1%is_ok_spec H2%bool_decide_eq_true]. done.
Qed.
Print Assumptions C75_conflict_refuted.

(** ** C81: what is kept *)
(** As without conflicts; the versions that got the conflict names count like any
    other file.
    Missing: conflicts that C28 does not cover. *)
Lemma local_usage_v C w last_sync X : let m := w_fs w in
  calm C m (w_ldb w) (w_rdb w) last_sync X → newer_here C m (w_ldb w) (w_rdb w) last_sync →
  local_usage C (w_fs (wv C w last_sync)) X = local_usage C m X.
Proof.
  intros m Hc Hn. unfold local_usage. apply set_sum_ext. intros p _. f_equal. f_equal. cbn [w_fs wv]. by apply (l_v _ _ _ _ _ _ Hc Hn).
Qed.
Theorem C81_conflict_room_partial C w last_sync :
  any_order C → idle C w → w_last w = Some last_sync →
  let X := excluded_now C (w_fs w) in
  calm C (w_fs w) (w_ldb w) (w_rdb w) last_sync X → newer_here C (w_fs w) (w_ldb w) (w_rdb w) last_sync →
  plain_blocks C →
  let '(_, w', r) := sync_main C (ret tt) w in
  r = Ok tt ∧
  ((whole_usage C (w_fs w') (dom (w_ldb w')) + local_usage C (w_fs w) X < c_limit C)%Z →
   ∀ p x, w_ldb w' !! p = Some x → ld_dir x = false → is_file (l_at C (w_fs w') p) = true).
Proof.
  intros Hor Hi Hl X Hc Hnh Hn. destruct (idle_clash C w last_sync Hor Hi Hl Hc Hnh) as [_ Hw].
  destruct (sync_main C (ret tt) w) as [[tr w'] r]. cbn [fst snd] in Hw. destruct Hw as (-> & _ & _ & Ho & Hre & Hse).
  split; [done|]. intros Hlt p x Hx Hd. rewrite <-(local_usage_v C w last_sync X Hc Hnh) in Hlt.
  destruct (best_room C (wv C w last_sync) last_sync X _ _ _ (clean_v _ _ _ _ _ _ Hc Hnh) Ho (re_ldb _ _ _ _ _ Hre) Hse Hn Hlt p x Hx Hd) as (c & t & ->). done.
Qed.
Print Assumptions C81_conflict_room_partial.
Theorem C81_conflict_rank_partial C w last_sync :
  any_order C → idle C w → w_last w = Some last_sync →
  calm C (w_fs w) (w_ldb w) (w_rdb w) last_sync (excluded_now C (w_fs w)) → newer_here C (w_fs w) (w_ldb w) (w_rdb w) last_sync →
  let '(_, w', r) := sync_main C (ret tt) w in
  r = Ok tt ∧
  ((∀ p c t, is_Some (w_ldb w' !! p) → r_at C (w_fs w') p = Some (File c t) → c_block C <= c_blocks C p (File c t))%Z →
   ∀ p q x y n n', w_ldb w' !! p = Some x → w_ldb w' !! q = Some y →
     is_link (l_at C (w_fs w') p) = true → ld_dir x = false → is_file (l_at C (w_fs w') q) = true →
     (removelast q = [] ∨ ∃ r z, w_ldb w' !! r = Some z ∧ ld_dir z = false ∧ is_link (l_at C (w_fs w') r) = true ∧ removelast q `prefix_of` r) →
     r_at C (w_fs w') p = Some n → r_at C (w_fs w') q = Some n' →
     (adj (c_account C) (ld_prio y) (c_blocks C q n') < adj (c_account C) (ld_prio x) (c_blocks C p n))%Qc →
     (c_blocks C q n' < c_blocks C p n)%Z).
Proof.
  intros Hor Hi Hl Hc Hnh. destruct (idle_clash C w last_sync Hor Hi Hl Hc Hnh) as [_ Hw].
  destruct (sync_main C (ret tt) w) as [[tr w'] r]. cbn [fst snd] in Hw. destruct Hw as (-> & _ & _ & Ho & Hre & Hse).
  split; [done|]. exact (best_rank C (wv C w last_sync) last_sync _ _ _ _ (clean_v _ _ _ _ _ _ Hc Hnh) Ho (re_ldb _ _ _ _ _ Hre) Hse).
Qed.
Print Assumptions C81_conflict_rank_partial.
(** Everything fits, older versions included; with less space "rm" stays out, and
    "n2", which has a lower priority and is smaller, is kept. *)
Example C81_conflict_example :
  let C := exSize 38000 512 ∅ in let C' := exSize 24000 512 ∅ in
  Forall (λ C, any_order C ∧ idle C exK ∧ excluded_now C (w_fs exK) = XN
    ∧ calm C (w_fs exK) (w_ldb exK) (w_rdb exK) 10 XN ∧ newer_here C (w_fs exK) (w_ldb exK) (w_rdb exK) 10 ∧ plain_blocks C) [C; C']
  ∧ w_last exK = Some 10%Z
  ∧ (let '(_, w', _) := sync_main C (ret tt) exK in
     whole_usage C (w_fs w') (dom (w_ldb w')) + local_usage C (w_fs exK) XN = 37888%Z)%Z
  ∧ (let '(_, w', _) := sync_main C' (ret tt) exK in
     (is_link (l_at C' (w_fs w') (e "rm")), prio w' (e "rm")) = (true, Some 1%Qc)
     ∧ (is_file (l_at C' (w_fs w') (e "n2")), prio w' (e "n2")) = (true, Some 0%Qc))
  ∧ let '(_, w', _) := sync_main C' (ret tt) exK in
    Forall (λ p, match r_at C' (w_fs w') p with Some (File c t) => (512 <=? c_blocks C' p (File c t))%Z = true | _ => True end) (elements (dom (w_ldb w'))).
Proof.
  cbv zeta. split.
  { assert (∀ l, newer_here (exSize l 512 ∅) (w_fs exK) (w_ldb exK) (w_rdb exK) 10) as Hn by (intros l; destruct exK_newer as [H1 H2 H3]; split; [exact H1|exact H2|exact H3]).
    repeat apply Forall_cons_2; [..|apply Forall_nil_2];
      (split; [done|]; split; [apply idle_of; mounted_now|]; split; [vm_compute; reflexivity|]; split; [apply calm_checked; decided|]; split; [apply Hn|];
       split; [intros p []; cbn; [case_bool_decide|..]; lia|done]). }
  split; [done|]. split; [vm_compute; reflexivity|]. split; [vm_compute; auto|]. vm_compute. repeat constructor.
Qed.
