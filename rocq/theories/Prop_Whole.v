(** What the theorems about whole syncs say about C44 (new directories), C60
    (removal by agreement) and C65 (deleting a link). *)
From Coq Require Import QArith Qcanon.
From Verif Require Import Prop_Excluded.
From stdpp Require Import options.

(** ** C44 *)
(** Missing: states with clashes.  That a state is in order ([cl_empty]) includes
    that a new directory is not empty or lies in another new one. *)
Theorem C44_directory_partial C w last_sync :
  any_order C → idle C w → w_last w = Some last_sync →
  let X := excluded_now C (w_fs w) in
  clean C (w_fs w) (w_ldb w) (w_rdb w) last_sync X →
  let '(_, w', r) := sync_main C (ret tt) w in
  r = Ok tt ∧ ∀ p t, l_at C (w_fs w) p = Some (Dir t) → w_ldb w !! p = None → p ∉ X →
    (∃ t', r_at C (w_fs w') p = Some (Dir t')) ∧ (∃ t', l_at C (w_fs w') p = Some (Dir t'))
    ∧ ld_dir <$> w_ldb w' !! p = Some true ∧ rd_dir <$> w_rdb w' !! p = Some true.
Proof.
  intros Ho Hi Hl X Hc. pose proof (C36_merge_partial C w last_sync Ho Hi Hl Hc) as H. cbv zeta in H. fold X in H.
  destruct (sync_main C (ret tt) w) as [[tr w'] r]. destruct H as (-> & Hr & Hs & H1 & H2 & _).
  split; [done|]. intros p t Hp Hk HX.
  assert (¬ stray C (w_fs w) (w_ldb w) X p) as Hns.
  { intros (_ & _ & [?|Hu]); [done|]. apply Hu. unfold safe_entry, l_at in *. destruct (decide (p = [])); [done|]. intros t' k E. by rewrite Hp in E. }
  assert (∃ t', merged C (w_fs w) (w_ldb w) last_sync X p = Some (Dir t')) as (t' & Em).
  { unfold merged. rewrite Hk, Hp. destruct (r_at C (w_fs w) p) as [n|] eqn:E; [|rewrite decide_False by done; by eexists].
    pose proof (cl_new_kind _ _ _ _ _ _ Hc p (Dir t) n) as Hkind. destruct n; try (by eexists); exfalso; (feed pose proof Hkind as Hd; [|done..|]; [by intros [? ?]; congruence|done]). }
  specialize (Hr p). specialize (Hs p). specialize (H1 p). specialize (H2 p). unfold Merge.shows in Hs. rewrite Em in *.
  split; [destruct (r_at C (w_fs w') p) as [[]|]; try done; by eexists|]. done.
Qed.
Print Assumptions C44_directory_partial.
Example C44_directory_example :
  any_order exC ∧ idle exC exN ∧ w_last exN = Some 10%Z ∧ excluded_now exC (w_fs exN) = XN
  ∧ clean exC (w_fs exN) (w_ldb exN) (w_rdb exN) 10 XN
  ∧ l_at exC (w_fs exN) (e "nd") = Some (Dir 15) ∧ w_ldb exN !! e "nd" = None ∧ e "nd" ∉ XN.
Proof.
  split; [done|]. split; [apply exN_idle|]. split; [done|]. split; [apply exN_X|]. split; [apply exN_clean|]. decided.
Qed.

(** ** C60 *)
(** A whole sync: a known file that is excluded now stays in the remote directory
    unless the patterns of all clients match it, or a directory that it is in.
    [m1] is the state in which the patterns are compared; it has the final local
    directory and the final patterns.
    Missing: states with clashes. *)
Theorem C60_sync_partial C w last_sync :
  any_order C → idle C w → w_last w = Some last_sync →
  let X := excluded_now C (w_fs w) in
  clean_x C (w_fs w) (w_ldb w) (w_rdb w) last_sync X →
  let '(_, w', r) := sync_main C (ret tt) w in
  r = Ok tt ∧ ∃ m1, (∀ k, ¬ below k (c_R C) ∨ exclude_dir C `prefix_of` k → m1 !! k = w_fs w' !! k)
    ∧ ∀ p, p ∈ X → is_Some (w_ldb w !! p) →
        let by_all := ∃ q, q ∈ X ∧ is_Some (w_ldb w !! q) ∧ q `prefix_of` p
          ∧ ∀ x c t, w_fs w' !! (exclude_dir C ++ [x]) = Some (File c t) → q ∈ c_glob C c m1 (c_L C) in
        is_Some (r_at C (w_fs w) p)
        ∧ (by_all → r_at C (w_fs w') p = None) ∧ (¬ by_all → is_Some (r_at C (w_fs w') p)).
Proof.
  intros Ho Hi Hl X Hc. pose proof (C80_sync_partial C w last_sync Ho Hi Hl Hc) as H. cbv zeta in H. fold X in H.
  destruct (sync_main C (ret tt) w) as [[tr w'] r]. destruct H as (-> & _ & _ & _ & (m1 & Hm & Hgo & Hst) & _).
  split; [done|]. exists m1. split; [done|]. intros p HX Hk by_all.
  destruct (cl_excluded_x _ _ _ _ _ _ Hc p HX) as [[n Hn] Hr]. destruct (Hr Hk) as [n' Hn']. split; [by exists n'|].
  assert (∀ q, agreed C m1 q ↔ ∀ x c t, w_fs w' !! (exclude_dir C ++ [x]) = Some (File c t) → q ∈ c_glob C c m1 (c_L C)) as Hag.
  { intros q. unfold agreed. split; intros H x c t E; (apply (H x c t)); [rewrite Hm|rewrite <-Hm]; try done; right; by eexists. }
  split.
  - intros (q & Hq & Hkq & Hpre & Ha). apply Hgo. exists q. rewrite Hag. done.
  - intros Hn0. destruct (Hst p) as (Hlike & _). { intros (q & Hq & Hkq & Ha & Hpre). apply Hn0. exists q. rewrite <-Hag. done. }
    assert (is_Some (merged C (w_fs w) (w_ldb w) last_sync X p)) as [x Ex].
    { unfold merged. destruct Hk as [d ->]. rewrite Hn, Hn'. destruct n; [case_match|..]; by eexists. }
    rewrite Ex in Hlike. destruct (r_at C (w_fs w') p); [by eexists|]. by destruct x.
Qed.
Print Assumptions C60_sync_partial.
Example C60_sync_example :
  any_order exSB ∧ idle exSB (theirs exS1 ldbS (Some 10%Z)) ∧ excluded_now exSB (w_fs exS1) = XS
  ∧ clean_x exSB (w_fs exS1) ldbS (w_rdb exS1) 10 XS ∧ e "a" ∈ XS ∧ is_Some (ldbS !! e "a").
Proof.
  split; [done|]. split; [apply idle_of; mounted_now|]. split; [decided|]. split; [apply clean_x_checked; decided|]. decided.
Qed.

(** ** C65 *)
(** After a sync of a state without clashes that was not cut off, the user
    deletes a link (and may change other things, and other clients may sync) and
    syncs again: the file goes to the trash.  No link may have been marked as a
    copy before, as is the case after an interruption.
    Missing: states with clashes. *)
Theorem C65_link_partial C w last_sync :
  any_order C → idle C w → w_last w = Some last_sync →
  clean C (w_fs w) (w_ldb w) (w_rdb w) last_sync (excluded_now C (w_fs w)) →
  (∀ p x t k, w_ldb w !! p = Some x → l_at C (w_fs w) p = Some (Link t k) → ld_local x = false) →
  let '(_, w', r) := sync_main C (ret tt) w in
  r = Ok tt ∧
  ∀ C2 w2 p x t k c t',
    l_at C (w_fs w') p = Some (Link t k) → last p = Some x →
    any_order C2 → c_L C2 = c_L C → c_R C2 = c_R C → idle C2 w2 → w_ldb w2 = w_ldb w' → w_last w2 = Some (c_end C) →
    clean C2 (w_fs w2) (w_ldb w2) (w_rdb w2) (c_end C) (excluded_now C2 (w_fs w2)) →
    c_trash C2 = true → (∀ d, c_cleanup C2 = Some d → (0 <= d)%Z) →
    is_Some (w_ldb w' !! p) → l_at C2 (w_fs w2) p = None → (parent p = [] ∨ is_Some (l_at C2 (w_fs w2) (parent p))) →
    r_at C2 (w_fs w2) p = Some (File c t') →
    let '(_, w3, r3) := sync_main C2 (ret tt) w2 in
    r3 = Ok tt ∧ w_fs w3 !! (trash_dir C2 ++ [x]) = Some (File c (c_now C2)) ∧ r_at C2 (w_fs w3) p = None.
Proof.
  intros Ho Hi Hl Hc Hfl. pose proof (C74_flags_partial C w last_sync Ho Hi Hl Hc) as H. cbv zeta in H.
  destruct (sync_main C (ret tt) w) as [[tr w'] r]. destruct H as (-> & Hflag). split; [done|].
  intros C2 w2 p x t k c t' Hlink Hx Ho2 EL ER Hi2 Eldb Hl2 Hc2 Htr Hcl [d Hd] Hgone Hpar Hr.
  pose proof (C36_merge_partial C2 w2 (c_end C) Ho2 Hi2 Hl2 Hc2) as H. cbv zeta in H.
  destruct (sync_main C2 (ret tt) w2) as [[tr3 w3] r3]. destruct H as (-> & Hrem & _ & _ & _ & _ & _ & Hth & _).
  split; [done|].
  assert (trashed C2 (w_fs w2) (w_ldb w2) p) as Ht.
  { split; [done|]. split; [split; [exists d; by rewrite Eldb|done]|]. split.
    - intros [[y Hy] Hn]. destruct Hpar as [Hpar|[n Hpar]]; [|by rewrite Hn in Hpar].
      rewrite Hpar in Hy. destruct (cl_rows_l _ _ _ _ _ _ Hc2 [] (ld_dir y)) as [(Hne & _) _]; [cbv beta; by rewrite Hy|done].
    - exists d. split; [by rewrite Eldb|]. specialize (Hflag p d Hd). rewrite Hlink in Hflag.
      destruct (ld_local d) eqn:Ef; [|done]. destruct (proj1 Hflag eq_refl) as (x0 & t0 & k0 & H1 & H2 & H3).
      rewrite (Hfl p x0 t0 k0 H1 H3) in H2. done. }
  split.
  - destruct (th_new _ _ _ _ Hth Hcl p x Ht Hx) as [-> _]. by rewrite Hr.
  - specialize (Hrem p). assert (merged C2 (w_fs w2) (w_ldb w2) (c_end C) (excluded_now C2 (w_fs w2)) p = None) as E.
    { unfold merged. rewrite Eldb, Hd, Hgone. done. }
    rewrite E in Hrem. destruct (r_at C2 (w_fs w3) p) as [[]|]; done.
Qed.
Print Assumptions C65_link_partial.
Definition is_Link_ (n : option node) : bool := match n with Some (Link _ _) => true | _ => false end.
Lemma idle_reboot C w : mounted C (w_fs w) → idle C (reboot w).
Proof. intros H. by split. Qed.
Lemma del_ldb p w : w_ldb (reboot (del p w)) = w_ldb w.
Proof. done. Qed.
Definition exT1 : world := (sync_main (at_ exC 0 20 21) (ret tt) exM).1.2.
Definition exT2 : world := reboot (del (pL ++ e "a") exT1).
Example C65_link_example :
  any_order (at_ exC 0 20 21) ∧ idle (at_ exC 0 20 21) exM ∧ w_last exM = Some 10%Z
  ∧ clean (at_ exC 0 20 21) (w_fs exM) (w_ldb exM) (w_rdb exM) 10 (excluded_now (at_ exC 0 20 21) (w_fs exM))
  ∧ (∀ p x t k, w_ldb exM !! p = Some x → l_at (at_ exC 0 20 21) (w_fs exM) p = Some (Link t k) → ld_local x = false)
  ∧ l_at exC (w_fs exT1) (e "a") = Some (Link (lit "/r/a") 20) ∧ idle (at_ exC 0 40 41) exT2
  ∧ clean (at_ exC 0 40 41) (w_fs exT2) (w_ldb exT2) (w_rdb exT2) 21 (excluded_now (at_ exC 0 40 41) (w_fs exT2))
  ∧ w_ldb exT2 = w_ldb exT1 ∧ w_last exT2 = Some 21%Z ∧ is_Some (w_ldb exT1 !! e "a")
  ∧ l_at exC (w_fs exT2) (e "a") = None ∧ parent (e "a") = [] ∧ r_at exC (w_fs exT2) (e "a") = Some (File (lit "aa") 5).
Proof.
  split; [done|]. split; [apply idle_of; mounted_now|]. split; [done|]. split; [apply clean_checked; decided|].
  split. { intros p x t k Hx Hp.
    assert (map_Forall (λ p x, ¬ is_Link_ (l_at (at_ exC 0 20 21) (w_fs exM) p) = true ∨ ld_local x = false) (w_ldb exM)) as H by decided.
    specialize (H p x Hx). cbv beta in H. rewrite Hp in H. by destruct H. }
  split; [decided|]. split; [apply idle_reboot; mounted_now|]. split; [apply clean_checked; decided|]. split; [apply del_ldb|]. decided.
Qed.
