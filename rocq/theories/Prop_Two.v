(** Several clients with the same remote directory: C76. *)
From Coq Require Import QArith Qcanon.
From Verif Require Export MergeTwo.
From stdpp Require Import options.

(** ** C76: the clients converge *)
(** A client syncs, then the others do, any number of times; when nothing was
    changed here in between, the next sync leaves the remote directory alone and
    makes the local directory show it.
    Missing: clashes other than conflicts in which the version of the client that
    syncs is the newer one ([calm], [newer_here], [no_clash]); file times in the
    future. *)
Theorem C76_catch_up_partial A A' w last_sync m rdb w2 :
  any_order A → any_order A' → idle A w → w_last w = Some last_sync →
  let X := excluded_now A (w_fs w) in
  calm A (w_fs w) (w_ldb w) (w_rdb w) last_sync X → newer_here A (w_fs w) (w_ldb w) (w_rdb w) last_sync →
  (c_now A <= c_end A)%Z →
  (∀ p c t, l_at A (w_fs w) p = Some (File c t) ∨ r_at A (w_fs w) p = Some (File c t) → (t <= c_end A)%Z) →
  (∀ p d, w_rdb w !! p = Some d → (rd_last d <= c_end A)%Z) →
  let w1 := (sync_main A (ret tt) w).1.2 in
  others A (w_fs w1) (w_rdb w1) m rdb →
  no_clash A m (w_ldb w1) X →
  c_L A' = c_L A → c_R A' = c_R A → c_id A' = c_id A → excluded_now A' m = X →
  w_fs w2 = m → w_ldb w2 = w_ldb w1 → w_rdb w2 = rdb → w_last w2 = w_last w1 → reboot w2 = w2 →
  let '(_, w3, r) := sync_main A' (ret tt) w2 in
  r = Ok tt
  ∧ (∀ p, like (r_at A (w_fs w3) p) (r_at A m p))
  ∧ (∀ p, like (view A (w_fs w3) p) (if decide (stray A (w_fs w) (w_ldb w) X p) then view A (w_fs w) p else r_at A m p))
  ∧ (∀ k, ¬ below k (c_L A) → ¬ below k (c_R A) → w_fs w3 !! k = m !! k).
Proof.
  intros Ho Ho' Hi Hl X Hc Hn Hnow Hmt Hrt. pose proof (sync_rests A w last_sync Ho Hi Hl Hc Hn Hnow Hmt Hrt) as Hw. fold X in Hw.
  destruct (sync_main A (ret tt) w) as [[tr w1] r1]. cbn [fst snd]. destruct Hw as (-> & Hc1 & Hq & Hlb1 & El1 & HS & HV1).
  intros Hot Hnc EL ER Eid EX E1 E2 E3 E4 Hb2.
  assert (left_by A (w_fs w1) m rdb) as Hlb by (apply (others_left A (w_fs w1) (w_rdb w1)); [apply (cl_apart _ _ _ _ _ _ Hc)|done..]).
  pose proof (clean_left _ _ _ _ _ _ Hc1 Hq _ _ Hlb Hnc) as Hc2.
  pose proof (merged_left _ _ _ _ _ _ Hc1 Hq _ _ Hlb Hnc) as HM.
  pose proof (stray_left _ _ _ _ _ _ Hc1 Hq _ _ Hlb Hnc) as HS2.
  assert (clean A' (w_fs w2) (w_ldb w2) (w_rdb w2) (c_end A) (excluded_now A' (w_fs w2))) as Hc3.
  { rewrite E1, E2, E3, EX. apply (clean_conf A A'); [done..| | |done].
    - by apply (new_left _ _ _ _ _ _ Hc1 Hq _ _ Hlb Hnc).
    - by apply (gone_left _ _ _ _ _ _ Hc1 Hq _ _ Hlb Hnc). }
  assert (idle A' w2) as Hi2. { split; [|done]. apply Hc3. }
  assert (w_last w2 = Some (c_end A)) as Hl2. { rewrite E4. apply El1. }
  destruct (idle_sync A' w2 (c_end A) Ho' Hi2 Hl2 Hc3) as [_ Hw2].
  destruct (sync_main A' (ret tt) w2) as [[tr2 w3] r2]. cbn [fst snd] in Hw2. destruct Hw2 as (-> & Hoc2 & _).
  rewrite E1, E2, E3, EX in Hc3. rewrite E1, E2, EX in Hoc2.
  pose proof (view_outcome _ _ _ _ _ _ _ Hc3 Hoc2) as HV. destruct (conf_same A A' EL ER) as (Er & Ev & Es & Em).
  split; [done|]. split; [|split].
  - intros p. pose proof (oc_remote _ _ _ _ _ _ Hoc2 p) as H2. by rewrite Em, Er, HM in H2.
  - intros p. specialize (HV p). rewrite Em, !Ev, HM in HV. specialize (HV1 p). 
    destruct (decide (stray A' m (w_ldb w1) X p)) as [Hs|Hs]; rewrite Es, HS2, HS in Hs.
    + rewrite decide_True by done. eapply like_trans; [exact HV|]. eapply like_trans; [|by apply HV1].
      unfold view. rewrite (lb_local _ _ _ _ Hlb). destruct (l_at A (w_fs w1) p) as [[| |]|]; try apply like_refl.
      case_decide; [|apply like_refl]. assert (stray A m (w_ldb w1) X p) as Hs2 by by rewrite HS2, HS.
      rewrite (nc_stray _ _ _ _ Hnc p Hs2). apply HS in Hs. rewrite (cl_stray _ _ _ _ _ _ Hc1 p Hs). done.
    + rewrite decide_False by done. done.
  - intros k H1 H2. apply (oc_out _ _ _ _ _ _ Hoc2); by rewrite ?EL, ?ER.
Qed.
Print Assumptions C76_catch_up_partial.

(** Two clients sync, and the first one again: then both show the same, and it is
    what the remote directory has. *)
Theorem C76_two_partial A B A' wA wB lastA lastB w2 :
  any_order A → any_order B → any_order A' → idle A wA → idle B wB → w_last wA = Some lastA → w_last wB = Some lastB →
  let X := excluded_now A (w_fs wA) in let Y := excluded_now B (w_fs wB) in
  clean A (w_fs wA) (w_ldb wA) (w_rdb wA) lastA X →
  (c_now A <= c_end A)%Z →
  (∀ p c t, l_at A (w_fs wA) p = Some (File c t) ∨ r_at A (w_fs wA) p = Some (File c t) → (t <= c_end A)%Z) →
  (∀ p d, w_rdb wA !! p = Some d → (rd_last d <= c_end A)%Z) →
  let wA' := (sync_main A (ret tt) wA).1.2 in
  c_R B = c_R A → apart (c_L A) (c_L B) → w_fs wB = w_fs wA' → w_rdb wB = w_rdb wA' →
  clean B (w_fs wB) (w_ldb wB) (w_rdb wB) lastB Y →
  let wB' := (sync_main B (ret tt) wB).1.2 in
  no_clash A (w_fs wB') (w_ldb wA') X →
  c_L A' = c_L A → c_R A' = c_R A → c_id A' = c_id A → excluded_now A' (w_fs wB') = X →
  w_fs w2 = w_fs wB' → w_ldb w2 = w_ldb wA' → w_rdb w2 = w_rdb wB' → w_last w2 = w_last wA' → reboot w2 = w2 →
  let '(_, w3, r) := sync_main A' (ret tt) w2 in
  r = Ok tt ∧ ∀ p,
    (¬ stray A (w_fs wA) (w_ldb wA) X p → like (view A (w_fs w3) p) (r_at A (w_fs w3) p))
    ∧ (¬ stray B (w_fs wB) (w_ldb wB) Y p → like (view B (w_fs w3) p) (r_at A (w_fs w3) p))
    ∧ like (r_at A (w_fs w3) p) (merged B (w_fs wB) (w_ldb wB) lastB Y p).
Proof.
  intros HoA HoB HoA' HiA HiB HlA HlB X Y HcA Hnow Hmt Hrt wA' HR HL E1 E2 HcB wB' Hnc EL ER Eid EX E3 E4 E5 E6 Hb.
  pose proof (cl_apart _ _ _ _ _ _ HcB) as HapB.
  assert (others A (w_fs wA') (w_rdb wA') (w_fs wB') (w_rdb wB')) as Hot.
  { apply (others_sync A (w_fs wA') (w_rdb wA') B wB lastB); try done; [|by apply clean_calm|by eapply clean_newer]. rewrite E1, E2. apply others_none. }
  pose proof (C76_catch_up_partial A A' wA lastA (w_fs wB') (w_rdb wB') w2 HoA HoA' HiA HlA (clean_calm _ _ _ _ _ _ HcA) (clean_newer _ _ _ _ _ _ HcA) Hnow Hmt Hrt Hot Hnc EL ER Eid EX E3 E4 E5 E6 Hb) as H.
  destruct (sync_main A' (ret tt) w2) as [[tr w3] r]. destruct H as (-> & Hr & Hv & Hk). split; [done|].
  destruct (idle_sync B wB lastB HoB HiB HlB HcB) as [_ Hw]. subst wB'.
  destruct (sync_main B (ret tt) wB) as [[trB wB'] rB]. cbn [fst snd] in *. destruct Hw as (-> & Hoc & _). fold Y in Hoc.
  pose proof (view_outcome _ _ _ _ _ _ _ HcB Hoc) as HV.
  assert (∀ m p, r_at A m p = r_at B m p) as Er by (intros; unfold r_at; by rewrite HR).
  intros p. split; [|split].
  - intros Hs. specialize (Hv p). rewrite decide_False in Hv by done. eapply like_trans; [exact Hv|]. apply like_sym, Hr.
  - intros Hs. specialize (HV p). rewrite decide_False in HV by done. pose proof (oc_remote _ _ _ _ _ _ Hoc p) as Hm.
    eapply like_trans; [|apply like_sym, Hr]. rewrite Er.
    eapply like_trans; [|apply like_sym, Hm]. eapply like_trans; [|exact HV].
    assert (l_at B (w_fs w3) p = l_at B (w_fs wB') p) as El.
    { unfold l_at. case_decide; [done|]. apply Hk; [by apply apart_not_below, apart_sym|]. apply apart_not_below. by rewrite <-HR. }
    unfold view. rewrite El. destruct (l_at B (w_fs wB') p) as [[| |]|]; try apply like_refl.
    case_decide; [|apply like_refl]. rewrite <-!Er. apply Hr.
  - eapply like_trans; [apply Hr|]. rewrite Er. apply (oc_remote _ _ _ _ _ _ Hoc).
Qed.
Print Assumptions C76_two_partial.
(** For both theorems.  The second client has edited "d/a", deleted "b" and made "nb". *)
Definition listT : list (path * node) := listN ++ map (λ qn, (pI ++ qn.1, qn.2))
  [([], Dir 1); (e "d", Dir 4); (e "d" ++ e "a", File (lit "a3") 35); (e "m", File (lit "m") 5); (e "rm", Link (lit "/r/rm") 6);
   (e "del", Link (lit "/r/del") 6); (e "nb", File (lit "nb") 35)]%Z.
Definition ldbT : lmap := list_to_map
  [(e "d", LData true 1%Qc true); known true (e "d" ++ e "a"); known false (e "b"); known true (e "m"); known false (e "rm"); known false (e "del")].
Definition exA1 : world := world_of (list_to_map listT) ldbN rdbN.
Definition exA2 : world := (sync_main exC (ret tt) exA1).1.2.
Definition exB1 : world := other exA2 ldbT.
Definition exB2 : world := (sync_main exC2 (ret tt) exB1).1.2.
Definition exC3 : conf := at_ exC 100000 60 61.
Definition exA3 : world := reboot (World (w_fs exB2) (w_ldb exA2) (w_rdb exB2) (w_last exA2) ∅ ∅ ∅ ∅ None).
Definition exA4 : world := (sync_main exC3 (ret tt) exA3).1.2.
Lemma exA1_clean : clean exC (w_fs exA1) (w_ldb exA1) (w_rdb exA1) 10 XN.
Proof. apply clean_checked. decided. Qed.
Lemma exB1_clean : clean exC2 (w_fs exB1) (w_ldb exB1) (w_rdb exB1) 10 ∅.
Proof. apply clean_checked. decided. Qed.
Lemma clean_no_clash A m ldb rdb last_sync X : clean A m ldb rdb last_sync X → no_clash A m ldb X.
Proof.
  intros Hc. split; [|apply (cl_stray _ _ _ _ _ _ Hc)|apply (cl_stray_up _ _ _ _ _ _ Hc)].
  intros p x n Hx Hr. apply (cl_kind_r _ _ _ _ _ _ Hc p); [left; by rewrite Hx|done].
Qed.
Lemma exA3_clean : clean exC (w_fs exB2) (w_ldb exA2) (w_rdb exB2) 21 XN.
Proof. apply clean_checked. decided. Qed.
Example C76_two_example :
  any_order exC ∧ any_order exC2 ∧ any_order exC3 ∧ idle exC exA1 ∧ idle exC2 exB1 ∧ w_last exA1 = Some 10%Z ∧ w_last exB1 = Some 10%Z
  ∧ excluded_now exC (w_fs exA1) = XN ∧ clean exC (w_fs exA1) (w_ldb exA1) (w_rdb exA1) 10 XN
  ∧ (c_now exC <= c_end exC)%Z
  ∧ (∀ p c t, l_at exC (w_fs exA1) p = Some (File c t) ∨ r_at exC (w_fs exA1) p = Some (File c t) → (t <= c_end exC)%Z)
  ∧ (∀ p d, w_rdb exA1 !! p = Some d → (rd_last d <= c_end exC)%Z)
  ∧ c_R exC2 = c_R exC ∧ apart (c_L exC) (c_L exC2) ∧ w_fs exB1 = w_fs exA2 ∧ w_rdb exB1 = w_rdb exA2
  ∧ excluded_now exC2 (w_fs exB1) = ∅ ∧ clean exC2 (w_fs exB1) (w_ldb exB1) (w_rdb exB1) 10 ∅
  ∧ no_clash exC (w_fs exB2) (w_ldb exA2) XN ∧ excluded_now exC3 (w_fs exB2) = XN
  ∧ map (view exC (w_fs exA4)) [e "d" ++ e "a"; e "b"; e "m"; e "nb"; e "nd" ++ e "f"]
    = [Some (File (lit "a3") 35); None; Some (File (lit "m2") 15); Some (File (lit "nb") 35); Some (File (lit "new") 15)]%Z.
Proof.
  split; [done|]. split; [done|]. split; [done|]. split; [apply idle_of; mounted_now|].
  split; [split; [exact (cl_mounted _ _ _ _ _ _ exB1_clean)|reflexivity]|]. split; [reflexivity|]. split; [reflexivity|]. split; [decided|]. split; [exact exA1_clean|]. split; [decided|].
  split.
  { assert (Forall (λ kn, pI `prefix_of` kn.1 ∨ (match kn.2 with File _ t => t | Link _ t => t | Dir t => t end <= 21)%Z) listT) as Hf by decided.
    rewrite Forall_forall in Hf. intros p c t Hn. change (c_end exC) with 21%Z.
    assert (∃ k, (k = pL ++ p ∨ k = pR ++ p) ∧ (list_to_map listT : fs) !! k = Some (File c t)) as (k & Hk & Ek).
    { unfold l_at, r_at in Hn. destruct Hn as [Hn|Hn]; case_decide; [discriminate Hn|exists (pL ++ p); by auto|discriminate Hn|exists (pR ++ p); by auto]. }
    apply elem_of_list_to_map_2 in Ek. destruct (Hf _ Ek) as [[s E]|?]; [|done]. cbn in E. destruct Hk as [->| ->]; discriminate E. }
  split. { intros p d Hd. assert (Forall (λ pd : path * rdata, (rd_last pd.2 <= 21)%Z) (map_to_list rdbN)) as Hf by decided. rewrite Forall_forall in Hf.
    apply (Hf (p, d)). by apply elem_of_map_to_list. }
  split; [reflexivity|]. split; [decided|]. split; [reflexivity|]. split; [reflexivity|]. split; [decided|]. split; [exact exB1_clean|].
  split; [exact (clean_no_clash _ _ _ _ _ _ exA3_clean)|].
  split; [decided|]. decided.
Qed.
