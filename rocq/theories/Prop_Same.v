(** C84: files that are the same on both sides. *)
From Coq Require Import QArith Qcanon.
From Verif Require Export Prop_Clash.
From stdpp Require Import options.

(** ** A state with files that are the same on both sides *)
(** [t.x] is new on both sides, [s] was edited on both; the rest as in [exK]. *)
Definition listT : list (path * node) := (listK ++
  [(pL ++ e "t.x", File (lit "twin") 17); (pR ++ e "t.x", File (lit "twin") 17);
   (pL ++ e "s", File (lit "same") 18); (pR ++ e "s", File (lit "same") 18)])%Z.
Definition exT : world := world_of (list_to_map listT) (<[e "s" := LData false 1%Qc true]> (w_ldb exK)) (<[e "s" := RData false 9%Z]> (w_rdb exK)).
Lemma exT_calm : calm exC (w_fs exT) (w_ldb exT) (w_rdb exT) 10 XN.
Proof. apply calm_checked. decided. Qed.
Lemma exT_clash p : clash exC (w_fs exT) (w_ldb exT) (w_rdb exT) 10 p ↔ p ∈ clashes.
Proof.
  split.
  - intros Hc. assert (p ∈ paths exC (w_fs exT) (w_ldb exT) (w_rdb exT) XN) as Hp.
    { destruct Hc as (c & t & c' & t' & Hl & _). apply l_paths. by eexists. }
    assert (Forall (λ p, clash exC (w_fs exT) (w_ldb exT) (w_rdb exT) 10 p → p ∈ clashes) (paths exC (w_fs exT) (w_ldb exT) (w_rdb exT) XN)) as Hf by decided.
    rewrite Forall_forall in Hf. by apply Hf.
  - intros Hp. assert (Forall (clash exC (w_fs exT) (w_ldb exT) (w_rdb exT) 10) clashes) as Hf by decided. rewrite Forall_forall in Hf. by apply Hf.
Qed.
Lemma exT_newer : newer_here exC (w_fs exT) (w_ldb exT) (w_rdb exT) 10.
Proof.
  split.
  - intros p c t c' t' Hc%exT_clash. apply elem_of_cons in Hc as [->|Hc%elem_of_list_singleton]; [|subst p];
      vm_compute; intros [= <- <-] [= <- <-]; done.
  - intros p Hc%exT_clash. apply elem_of_cons in Hc as [->|Hc%elem_of_list_singleton]; [|subst p]; decided.
  - intros _ p _. exists (e "b"). rewrite exT_clash. decided.
Qed.

(** ** C84 *)
(** A file that has the same contents and time on both sides, known or not, is
    still there under its name at every point of the sync and afterwards, and no
    conflict file is made for it.
    Missing: states that are not in order; conflicts in other files in which the
    local version is older. *)
Theorem C84_same_partial C w last_sync :
  any_order C → idle C w → w_last w = Some last_sync →
  let X := excluded_now C (w_fs w) in
  let m := w_fs w in
  calm C m (w_ldb w) (w_rdb w) last_sync X → newer_here C m (w_ldb w) (w_rdb w) last_sync →
  let '(tr, w', r) := sync_main C (ret tt) w in
  r = Ok tt ∧ ∀ p c t, l_at C m p = Some (File c t) → r_at C m p = Some (File c t) →
    (∀ w1, w1 ∈ tr → w_fs w1 !! (c_R C ++ p) = Some (File c t) ∨ w_fs w1 !! (c_L C ++ p) = Some (File c t))
    ∧ r_at C (w_fs w') p = Some (File c t)
    ∧ (l_at C (w_fs w') p = Some (File c t) ∨ ∃ k, l_at C (w_fs w') p = Some (Link (abs_path (c_R C ++ p)) k))
    ∧ (∀ q, q = conflict_name C p → l_at C m q = None → r_at C m q = None →
        l_at C (w_fs w') q = None ∧ r_at C (w_fs w') q = None).
Proof.
  intros Ho Hi Hl X m Hc Hn. pose proof (C28_sync_partial C w last_sync Ho Hi Hl Hc Hn) as H. pose proof (C39_conflict_partial C w last_sync Ho Hi Hl Hc Hn) as Ht.
  cbv zeta in H, Ht. fold X m in H, Ht. destruct (sync_main C (ret tt) w) as [[tr w'] r]. destruct H as (-> & H1 & H2 & _).
  split; [done|]. intros p c t El Er.
  assert (¬ clash C m (w_ldb w) (w_rdb w) last_sync p) as Hnc.
  { intros (? & ? & ? & ? & E & E' & Hne & _). congruence. }
  assert (merged C m (w_ldb w) last_sync X p = Some (File c t)) as Em.
  { unfold merged. rewrite El, Er. by repeat case_match. }
  assert (∀ q, clash C m (w_ldb w) (w_rdb w) last_sync q → p ≠ conflict_name C q) as Hnn.
  { intros q Hq ->. pose proof (nh_free _ _ _ _ _ Hn q Hq) as Hf. destruct Hf. congruence. }
  split; [intros w1 Hw1; by eapply (Ht w1 Hw1)|]. destruct (H2 p Hnc Hnn) as [E1 E2]. unfold shows in E2. rewrite Em in *.
  split; [by destruct (r_at C (w_fs w') p) as [[]|]; destruct E1; subst|]. split; [done|].
  intros q Hq Eq Eq'.
  assert (merged C m (w_ldb w) last_sync X q = None) as Emq. { unfold merged. rewrite Eq, Eq'. by repeat case_match. }
  destruct (H2 q) as [E3 E4].
  - intros (? & ? & ? & ? & E & _). congruence.
  - intros q' Hq' E. assert (p = q') as ->; [|done]. destruct (merged_ours _ _ _ _ _ _ Hc _ _ Em) as (Hp0 & Hv & _).
    destruct (clash_ours C m (w_ldb w) (w_rdb w) last_sync X Hc Hn q' Hq') as (? & ? & _).
    apply (conflict_name_inj C); try done. congruence.
  - unfold shows in E4. rewrite Emq in *. rewrite decide_False in E4 by (intros ([n Es] & _); congruence).
    split; [done|]. by destruct (r_at C (w_fs w') q) as [[]|].
Qed.
Print Assumptions C84_same_partial.
Example C84_same_example :
  any_order exC ∧ idle exC exT ∧ w_last exT = Some 10%Z ∧ excluded_now exC (w_fs exT) = XN
  ∧ calm exC (w_fs exT) (w_ldb exT) (w_rdb exT) 10 XN ∧ newer_here exC (w_fs exT) (w_ldb exT) (w_rdb exT) 10
  ∧ (l_at exC (w_fs exT) (e "t.x") = Some (File (lit "twin") 17) ∧ r_at exC (w_fs exT) (e "t.x") = Some (File (lit "twin") 17)
     ∧ w_ldb exT !! e "t.x" = None)%Z
  ∧ (l_at exC (w_fs exT) (e "s") = Some (File (lit "same") 18) ∧ r_at exC (w_fs exT) (e "s") = Some (File (lit "same") 18)
     ∧ edited_l exC (w_fs exT) (w_ldb exT) 10 (e "s") ∧ edited_r exC (w_fs exT) (w_ldb exT) (w_rdb exT) 10 (e "s"))%Z
  ∧ l_at exC (w_fs exT) (conflict_name exC (e "t.x")) = None ∧ r_at exC (w_fs exT) (conflict_name exC (e "t.x")) = None.
Proof.
  split; [done|]. split; [apply idle_of; mounted_now|]. split; [done|]. split; [vm_compute; reflexivity|]. split; [apply exT_calm|]. split; [apply exT_newer|].
  split; [decided|]. split; [decided|]. decided.
Qed.
