(** C80: the syncs after a file that is in use has been excluded. *)
From Coq Require Import QArith Qcanon.
From Verif Require Export Prop_Excluded.
From stdpp Require Import options.

(** ** Proofs *)
Lemma kept_outcome C w last X m5 m' : any_order C → idle C w → w_last w = Some last → clean_x C (w_fs w) (w_ldb w) (w_rdb w) last X →
  (∀ p, ¬ let_go C (w_ldb w) X m5 p) → parted C (w_fs w) (w_ldb w) last X m5 m' → outcome C (w_fs w) (w_ldb w) last X m'.
Proof.
  intros [Hit Hrows] [_ Hb] Hlast H Hun [[Hr Hl Ho Hm Hu Ht Htl Hrs] _ _ Hre Hm' Hu' Ht' Htl'].
  assert (v_ldb w = w_ldb w) as Hvl by by rewrite <- Hb. assert (v_rdb w = w_rdb w) as Hvr by by rewrite <- Hb.
  assert (FMProofs.fresh w) as Hfresh by by rewrite <- Hb.
  assert (Hsame : ∀ k, ¬ trash_dir C `prefix_of` k → m' !! k = m5 !! k).
  { intros k Hk. apply Hre; [done|]. intros p Hp. by destruct (Hun p). }
  split; [..|done|done|done|done|].
  - intros p. unfold Merge.r_at in *. specialize (Hr p). case_decide as Hd; [done|]. rewrite Hsame; [done|]. intros H0%trash_util. apply (util_not_R C w last X H) in H0; tauto.
  - intros p. unfold Merge.l_at in *. specialize (Hl p). case_decide as Hd; [done|]. rewrite Hsame; [done|]. intros H0%trash_util. by apply (util_not_L C w last X H) in H0.
  - intros k Hk Hk'. rewrite Hsame; [by apply Ho|]. intros H0%trash_util. by apply (util_out C w last X H) in H0.
  - intros k Hk Hk'. rewrite Hsame by done. by apply Hrs.
Qed.
Lemma kept_recorded C w last X m5 w' : (∀ p, ¬ let_go C (w_ldb w) X m5 p) → recorded_x C w last X m5 w' → recorded C w last X w'.
Proof. intros Hn [_ H1 H2 H3 H4]. split; [intros p; by apply H1|intros p; by apply H2|done|done]. Qed.

(** Another client's patterns do not match it. *)
Definition still_used (C : conf) (m : fs) (q : path) : Prop :=
  ∃ x c t, x ≠ c_id C ∧ m !! (exclude_dir C ++ [x]) = Some (File c t) ∧ ∀ m', q ∉ c_glob C c m' (c_L C).
Lemma used_kept C w last X m5 m' : clean_x C (w_fs w) (w_ldb w) (w_rdb w) last X →
  (∀ q, q ∈ X → is_Some (w_ldb w !! q) → still_used C (w_fs w) q) → parted C (w_fs w) (w_ldb w) last X m5 m' → ∀ p, ¬ let_go C (w_ldb w) X m5 p.
Proof.
  intros Hc Hu Hp p (q & Hq & Hk & Ha & _). destruct (Hu q Hq Hk) as (x & c & t & Hx & Hm & Hg). apply (Hg m5). apply (Ha x c t).
  rewrite (oc_rest _ _ _ _ _ _ (pa_merge _ _ _ _ _ _ _ Hp)).
  - rewrite decide_False; [done|]. unfold exclude_file. intros E. apply app_inv_head in E. by injection E.
  - unfold exclude_dir. rewrite <-app_assoc. by eexists.
  - intros [s E]. unfold trash_dir, exclude_dir in E. rewrite <-!app_assoc in E. apply app_inv_head in E. by injection E.
Qed.

(** While another client still uses the excluded files, the next sync of the
    client that excludes them changes nothing.
    Missing: states with clashes, times in the future, and what happens once
    all clients exclude the files (C80_sync_partial, C80_stuck_refuted). *)
Theorem C80_again_partial C C' w last_sync :
  any_order C → any_order C' → idle C w → w_last w = Some last_sync →
  let X := excluded_now C (w_fs w) in
  clean_x C (w_fs w) (w_ldb w) (w_rdb w) last_sync X →
  (∀ q, q ∈ X → is_Some (w_ldb w !! q) → still_used C (w_fs w) q) →
  (c_now C <= c_end C)%Z →
  (∀ p c t, l_at C (w_fs w) p = Some (File c t) ∨ r_at C (w_fs w) p = Some (File c t) → (t <= c_end C)%Z) →
  (∀ p d, w_rdb w !! p = Some d → (rd_last d <= c_end C)%Z) →
  c_L C' = c_L C → c_R C' = c_R C → c_id C' = c_id C → c_glob C' = c_glob C →
  let '(_, w1, r1) := sync_main C (ret tt) w in
  excluded_now C' (w_fs w1) = X →
  let '(_, w2, r2) := sync_main C' (ret tt) (reboot w1) in
  r1 = Ok tt ∧ r2 = Ok tt
  ∧ (∀ p, like (r_at C (w_fs w2) p) (r_at C (w_fs w1) p))
  ∧ (∀ p, like (view C (w_fs w2) p) (view C (w_fs w1) p))
  ∧ (∀ p, ld_dir <$> w_ldb w2 !! p = ld_dir <$> w_ldb w1 !! p) ∧ (∀ p, rd_dir <$> w_rdb w2 !! p = rd_dir <$> w_rdb w1 !! p).
Proof.
  intros Ho Ho' Hi Hl X Hc Hu Hnow Hmt Hrt EL ER Eid Egl. pose proof (idle_sync_x C w last_sync Ho Hi Hl Hc) as [_ Hw].
  destruct (sync_main C (ret tt) w) as [[tr w1] r1]. cbn [fst snd] in Hw. destruct Hw as (-> & m5 & Hp & _ & Hrx & _). fold X in Hp, Hrx. intros EX.
  pose proof (used_kept _ _ _ _ _ _ Hc Hu Hp) as Hng. pose proof (kept_outcome _ _ _ _ _ _ Ho Hi Hl Hc Hng Hp) as Hoc. pose proof (kept_recorded _ _ _ _ _ _ Hng Hrx) as Hre.
  destruct Ho as [Hit Hrows], Hi as [Hmo Hb].
  assert (v_ldb w = w_ldb w) as Hvl by by rewrite <- Hb. assert (v_rdb w = w_rdb w) as Hvr by by rewrite <- Hb.
  assert (FMProofs.fresh w) as Hfresh by by rewrite <- Hb.
  assert (∀ p c t, merged C (w_fs w) (w_ldb w) last_sync X p = Some (File c t) → (t <= c_end C)%Z) as Hmt'.
  { intros p c t Hm. apply (Hmt p c t). destruct (merged_inv _ _ _ _ _ _ Hc p _ Hm) as [(_ & _ & ?)|[(_ & _ & ?)|(_ & _ & ?)]]; auto. }
  pose proof (clean_x_again C w last_sync X Hc Hit Hrows Hvl Hvr Hfresh Hl w1 Hoc Hre Hnow Hmt' Hrt) as Hc1.
  assert (clean_x C' (w_fs w1) (w_ldb w1) (w_rdb w1) (c_end C) (excluded_now C' (w_fs w1))) as Hc2.
  { rewrite EX. apply (clean_x_conf C C'); [done..| | |done]; intros p.
    - by apply (new_again C w last_sync X Hc Hit Hrows Hvl Hvr Hfresh Hl w1 Hoc Hre Hnow Hmt' Hrt).
    - by apply (gone_l_again C w last_sync X Hc Hit Hrows Hvl Hvr Hfresh Hl w1 Hoc Hre Hnow Hmt' Hrt). }
  assert (idle C' (reboot w1)) as Hi1. { split; [|done]. apply Hc2. }
  destruct (idle_sync_x C' (reboot w1) (c_end C) Ho' Hi1 (re_last _ _ _ _ _ Hre) Hc2) as [_ Hw2].
  destruct (sync_main C' (ret tt) (reboot w1)) as [[tr2 w2] r2]. cbn [fst snd] in Hw2. destruct Hw2 as (-> & m6 & Hp2 & _ & Hrx2 & _).
  pose proof (merged_again C w last_sync X Hc Hit Hrows Hvl Hvr Hfresh Hl w1 Hoc Hre Hnow Hmt' Hrt) as HM. pose proof (stray_again C w last_sync X Hc Hit Hrows Hvl Hvr Hfresh Hl w1 Hoc Hre Hnow Hmt' Hrt) as HS.
  assert (∀ q, q ∈ excluded_now C' (w_fs w1) → is_Some (w_ldb (reboot w1) !! q) → still_used C' (w_fs (reboot w1)) q) as Hu2.
  { rewrite EX. intros q Hq Hk. cbn [reboot w_fs w_ldb] in *.
    apply (known_again C w last_sync X Hc Hit Hrows Hvl Hvr Hfresh Hl w1 Hoc Hre Hnow Hmt' Hrt) in Hk.
    apply (known_excluded C w last_sync X Hc Hit Hrows Hvl Hvr Hfresh Hl w1 Hoc Hre Hnow Hmt' Hrt) in Hk; [|done].
    destruct (Hu q Hq Hk) as (x & c & t & Hx & Hm & Hg). exists x, c, t. rewrite Eid, Egl, EL.
    assert (exclude_dir C' = exclude_dir C) as -> by (unfold exclude_dir, util_dir; by rewrite ER). split; [done|]. split; [|done].
    rewrite (oc_rest _ _ _ _ _ _ Hoc).
    - rewrite decide_False; [done|]. unfold exclude_file. intros E. apply app_inv_head in E. by injection E.
    - unfold exclude_dir. rewrite <-app_assoc. by eexists.
    - intros [s E]. unfold trash_dir, exclude_dir in E. rewrite <-!app_assoc in E. apply app_inv_head in E. by injection E. }
  pose proof (used_kept C' (reboot w1) _ _ _ _ Hc2 Hu2 Hp2) as Hng2. pose proof (kept_outcome C' (reboot w1) _ _ _ _ Ho' Hi1 (re_last _ _ _ _ _ Hre) Hc2 Hng2 Hp2) as Hoc2. pose proof (kept_recorded C' (reboot w1) _ _ _ _ Hng2 Hrx2) as Hre2.
  change (w_fs (reboot w1)) with (w_fs w1) in *. change (w_ldb (reboot w1)) with (w_ldb w1) in *. rewrite EX in Hoc2, Hre2, Hc2.
  pose proof (view_outcome _ _ _ _ _ _ _ Hc Hoc) as HV1. pose proof (view_outcome _ _ _ _ _ _ _ Hc2 Hoc2) as HV2.
  destruct (conf_same C C' EL ER) as (Er & Ev & Es & Em).
  split; [done|]. split; [done|]. split; [|split; [|split]].
  - intros p. pose proof (oc_remote _ _ _ _ _ _ Hoc2 p) as H2. rewrite Em, Er in H2. eapply like_trans; [exact H2|].
    eapply like_trans; [apply HM|]. apply like_sym, (oc_remote _ _ _ _ _ _ Hoc).
  - intros p. specialize (HV1 p). specialize (HV2 p). rewrite Em, !Ev in HV2. destruct (decide (stray C' _ _ X p)) as [Hs|Hs].
    + done.
    + rewrite Es, HS in Hs. rewrite decide_False in HV1 by done. eapply like_trans; [exact HV2|].
      eapply like_trans; [apply HM|]. by apply like_sym.
  - intros p. rewrite (re_ldb _ _ _ _ _ Hre p), (re_ldb _ _ _ _ _ Hre2 p). cbn [reboot w_fs w_ldb]. rewrite Em. symmetry; apply like_kind, HM.
  - intros p. rewrite (re_rdb _ _ _ _ _ Hre p), (re_rdb _ _ _ _ _ Hre2 p). cbn [reboot w_fs w_ldb]. rewrite Em. symmetry; apply like_kind, HM.
Qed.
Print Assumptions C80_again_partial.
Example C80_again_example :
  let C' := at_ exSA 8 40 41 in
  any_order exSA ∧ any_order C' ∧ idle exSA exS ∧ w_last exS = Some 10%Z ∧ excluded_now exSA (w_fs exS) = XS
  ∧ clean_x exSA (w_fs exS) (w_ldb exS) (w_rdb exS) 10 XS ∧ is_Some (w_ldb exS !! e "a")
  ∧ (∀ q, q ∈ XS → is_Some (w_ldb exS !! q) → still_used exSA (w_fs exS) q)
  ∧ (c_now exSA <= c_end exSA)%Z
  ∧ (∀ p c t, l_at exSA (w_fs exS) p = Some (File c t) ∨ r_at exSA (w_fs exS) p = Some (File c t) → (t <= c_end exSA)%Z)
  ∧ (∀ p d, w_rdb exS !! p = Some d → (rd_last d <= c_end exSA)%Z)
  ∧ excluded_now C' (w_fs (sync_main exSA (ret tt) exS).1.2) = XS.
Proof.
  intros C'. split; [done|]. split; [done|]. split; [apply idle_of; mounted_now|]. split; [done|]. split; [decided|].
  split; [apply clean_x_checked; decided|]. split; [decided|]. split; [|split; [done|split; [|split]]].
  - intros q ->%elem_of_singleton _. exists (lit "you"), (lit "x"), 1%Z. split; [done|]. split; [decided|].
    intros m'. change (c_glob exSA) with ex_glob. unfold ex_glob. case_bool_decide; [|set_solver].
    rewrite elem_of_singleton. by assert (e "a" ≠ [lit "x"]) by decided.
  - assert (Forall (λ kn, ((λ n, match n with File _ t => t | Link _ t => t | Dir t => t end) kn.2 <= 21)%Z) (map_to_list fsS)) as Hf by decided.
    rewrite Forall_forall in Hf. intros p c t Hn. assert (∃ k, fsS !! k = Some (File c t)) as [k Hk].
    { unfold l_at, r_at in Hn. destruct Hn as [Hn|Hn]; case_decide; [discriminate Hn|by eexists|discriminate Hn|by eexists]. }
    apply elem_of_map_to_list in Hk. exact (Hf _ Hk).
  - intros p d Hd. assert (Forall (λ pd : path * rdata, (rd_last pd.2 <= 21)%Z) (map_to_list rdbM)) as Hf by decided. rewrite Forall_forall in Hf.
    apply (Hf (p, d)). by apply elem_of_map_to_list.
  - decided.
Qed.
