(** C69 An interrupted sync can be repeated, when it was interrupted between two
    files (see C69_wedged_refuted and C39 for the other interruptions). *)
From Coq Require Import QArith Qcanon.
From Verif Require Import MergeHalf Prop_Merge MergeEx.
From stdpp Require Import options.

(** A sync has been cut off, or was killed, any number of times between two
    files; nothing has been recorded in the databases. *)
Inductive cut_off (C : conf) (last_sync : Z) (X : pset) (w : world) : world → Prop :=
  | co_not : cut_off C last_sync X w w
  | co_again w1 w2 : cut_off C last_sync X w w1 →
      between_files C (w_fs w1) (w_ldb w) last_sync X (w_fs w2) →
      w_ldb w2 = w_ldb w → w_rdb w2 = w_rdb w → w_last w2 = w_last w → cut_off C last_sync X w w2.

Lemma clean_conf C C' m ldb rdb last_sync X :
  c_L C' = c_L C → c_R C' = c_R C → c_id C' = c_id C → c_inflate C' = c_inflate C → c_trash C' = c_trash C →
  clean C m ldb rdb last_sync X → clean C' m ldb rdb last_sync X.
Proof.
  destruct C, C'; cbn. intros -> -> -> -> -> H. split; [|apply (cl_clean_unknown _ _ _ _ _ _ H)]. split; [|apply (cl_no_clash _ _ _ _ _ _ H)].
  destruct (cl_calm_x _ _ _ _ _ _ (cl_clean _ _ _ _ _ _ H)) as [[] ? [] ? ? ? ? ? ? ? ? ? ? ? ? ? ? ? ? ? ? ? ? ? ? ? ? ? ? ?].
  constructor; try assumption; by constructor.
Qed.
Lemma cut_off_clean C last_sync X w w' : cut_off C last_sync X w w' → clean C (w_fs w) (w_ldb w) (w_rdb w) last_sync X →
  clean C (w_fs w') (w_ldb w) (w_rdb w) last_sync X
  ∧ (∀ p, like (merged C (w_fs w') (w_ldb w) last_sync X p) (merged C (w_fs w) (w_ldb w) last_sync X p))
  ∧ (∀ p, stray C (w_fs w') (w_ldb w) X p ↔ stray C (w_fs w) (w_ldb w) X p)
  ∧ (∀ p, stray C (w_fs w) (w_ldb w) X p → like (l_at C (w_fs w') p) (l_at C (w_fs w) p))
  ∧ w_ldb w' = w_ldb w ∧ w_rdb w' = w_rdb w ∧ w_last w' = w_last w.
Proof.
  intros Hw Hc. induction Hw as [|w1 w2 _ (Hc1 & Hm1 & Hs1 & Hl1 & _) Hb El Er Et].
  { split; [done|]. split; [intros p; apply like_refl|]. split; [done|]. split; [intros; apply like_refl|]. done. }
  split; [split; [eapply clean'; [apply Hc1|done]|apply (cl_clean_unknown _ _ _ _ _ _ Hc)]|].
  split; [|split; [|split; [|done]]].
  - intros p. eapply like_trans; [|apply Hm1]. eapply merged'; [apply Hc1|done].
  - intros p. rewrite <- Hs1. eapply stray'; [apply Hc1|done].
  - intros p Hp. eapply like_trans; [|by apply Hl1]. destruct (bf_local _ _ _ _ _ _ Hb p) as [?|[Hk _]]; [done|]. by destruct Hp as (_ & ? & _).
Qed.

(** The next sync completes, with the outcome that the first one would have had.
    Missing: interruptions while a file is copied or replaced, after something
    was moved to the trash or removed from the local directory, or after a new
    remote file was linked; those in which a database was written; clashes. *)
Theorem C69_between_partial C C' w w1 last_sync X :
  any_order C' → w_last w = Some last_sync → clean C (w_fs w) (w_ldb w) (w_rdb w) last_sync X →
  cut_off C last_sync X w w1 →
  c_L C' = c_L C → c_R C' = c_R C → c_id C' = c_id C → c_inflate C' = c_inflate C → c_trash C' = c_trash C →
  excluded_now C' (w_fs w1) = X →
  let '(_, w2, r) := sync_main C' (ret tt) (reboot w1) in
  r = Ok tt
  ∧ (∀ p, like (r_at C (w_fs w2) p) (merged C (w_fs w) (w_ldb w) last_sync X p))
  ∧ (∀ p, ∃ n, shows C (w_fs w) (w_ldb w) last_sync X p n ∧ like (l_at C (w_fs w2) p) n)
  ∧ (∀ p, is_Some (w_ldb w2 !! p) ↔ is_Some (merged C (w_fs w) (w_ldb w) last_sync X p)).
Proof.
  intros Ho Hl Hc Hw EL ER Eid Ein Etr EX. destruct (cut_off_clean _ _ _ _ _ Hw Hc) as (Hc1 & Hm & Hs & Hst & E1 & E2 & E3).
  pose proof (clean_conf C C' _ _ _ _ _ EL ER Eid Ein Etr Hc1) as Hc2.
  assert (idle C' (reboot w1)) as Hi by (split; [apply Hc2|done]).
  pose proof (idle_sync C' (reboot w1) last_sync Ho Hi) as Hsync. cbn [reboot w_last w_fs w_ldb w_rdb] in Hsync. rewrite E1, E2, E3, EX in Hsync.
  destruct (Hsync Hl Hc2) as [_ Hw2]. destruct (sync_main C' (ret tt) (reboot w1)) as [[tr w2] r]. cbn [fst snd] in Hw2.
  destruct Hw2 as (-> & Hoc & _ & Hre & _).
  assert (Em : ∀ m p, merged C' m (w_ldb w) last_sync X p = merged C m (w_ldb w) last_sync X p).
  { clear -EL ER. intros. destruct C, C'; cbn in *. by subst. }
  assert (El : ∀ m p, l_at C' m p = l_at C m p) by (intros; unfold l_at; by rewrite EL).
  assert (Er : ∀ m p, r_at C' m p = r_at C m p) by (intros; unfold r_at; by rewrite ER).
  assert (Es : ∀ m p, stray C' m (w_ldb w) X p ↔ stray C m (w_ldb w) X p).
  { clear -EL. intros. destruct C, C'; cbn in *. by subst. }
  split; [done|]. split; [|split].
  - intros p. rewrite <- Er. eapply like_trans; [apply (oc_remote _ _ _ _ _ _ Hoc)|]. rewrite Em. apply Hm.
  - intros p. pose proof (oc_local _ _ _ _ _ _ Hoc p) as Hsh. unfold shows in Hsh. rewrite Em, El in Hsh. pose proof (Hm p) as Hmp.
    unfold shows. destruct (merged C (w_fs w1) (w_ldb w) last_sync X p) as [[c t|t k|t]|] eqn:E.
    + destruct (merged C (w_fs w) (w_ldb w) last_sync X p) as [[]|]; try done. simpl in Hmp. simplify_eq.
      destruct Hsh as [Hsh|[k Hsh]]; rewrite Hsh; eexists; (split; [|apply like_refl]); [by left|right; rewrite <- ER; eauto].
    + by apply (merged_no_link _ _ _ _ _ _ (cl_calm_x _ _ _ _ _ _ (cl_clean _ _ _ _ _ _ Hc1))) in E.
    + destruct (merged C (w_fs w) (w_ldb w) last_sync X p) as [[]|]; try done. destruct Hsh as [t1 Hsh]. rewrite Hsh. exists (Some (Dir t1)). split; [by eexists|done].
    + destruct (merged C (w_fs w) (w_ldb w) last_sync X p) as [[]|]; try done. eexists. split; [done|]. rewrite Hsh.
      destruct (decide (stray C' (w_fs w1) (w_ldb w) X p)) as [Hy|Hy], (decide (stray C (w_fs w) (w_ldb w) X p)) as [Hz|Hz].
      * rewrite El. by apply Hst.
      * exfalso. by apply Hz, Hs, Es.
      * exfalso. by apply Hy, Es, Hs.
      * done.
  - intros p. pose proof (re_ldb _ _ _ _ _ Hre p) as Hr. cbn [reboot w_fs w_ldb w_rdb w_last] in Hr. rewrite E1 in Hr. rewrite Em in Hr. pose proof (Hm p) as Hmp.
    rewrite <- !(fmap_is_Some ld_dir), Hr, fmap_is_Some.
    destruct (merged C (w_fs w1) (w_ldb w) last_sync X p) as [[]|], (merged C (w_fs w) (w_ldb w) last_sync X p) as [[]|]; cbn in Hmp; try done; split; (intros [? ?]; by eauto || done).
Qed.
Print Assumptions C69_between_partial.

(** ** An example *)
Global Instance like_dec a b : Decision (like a b).
Proof. destruct a as [[]|], b as [[]|]; unfold like; apply _. Defined.
Section check.
  Context (C : conf) (m : fs) (ldb : lmap) (rdb : rmap) (last_sync : Z) (X : pset) (m' : fs).
  Local Notation merged := (merged C m ldb last_sync X).
  Definition done_here (p : path) : bool :=
    match merged p, r_at C m' p, l_at C m' p with
    | Some (File c t), Some (File c1 t1), Some (File c2 t2) => bool_decide ((c, t) = (c1, t1) ∧ (c, t) = (c2, t2))
    | Some (File c t), Some (File c1 t1), Some (Link k _) => bool_decide ((c, t) = (c1, t1) ∧ k = abs_path (c_R C ++ p))
    | _, _, _ => false
    end.
  Definition between_check : Prop :=
    let ps := paths C m ldb rdb X ++ paths C m' ldb rdb X in
    Forall (λ k, trash_dir C `prefix_of` k → m' !! k = m !! k) ((map_to_list m).*1 ++ (map_to_list m').*1)
    ∧ Forall (λ kn : path * node, exclude_dir C `prefix_of` kn.1 → m !! kn.1 = Some kn.2 ∨ is_file_node kn.2 = true) (map_to_list m')
    ∧ Forall (λ p, (like (r_at C m' p) (r_at C m p) ∨ like (r_at C m' p) (merged p))
        ∧ (like (l_at C m' p) (l_at C m p) ∨ (is_Some (ldb !! p) ∧ done_here p = true))) ps.
  Global Instance between_check_dec : Decision between_check.
  Proof using Type. unfold between_check. apply _. Defined.
  Lemma between_checked : mounted C m' → util_ok C m' → between_check → between_files C m ldb last_sync X m'.
  Proof using Type.
    intros Hm Hu (H1 & H2 & H3). rewrite Forall_app, !Forall_forall in H1. rewrite Forall_forall in H2. rewrite Forall_app, !Forall_forall in H3.
    assert (Hp : ∀ p, like (r_at C m' p) (r_at C m p) ∧ like (l_at C m' p) (l_at C m p) ∨ p ∈ paths C m ldb rdb X ∨ p ∈ paths C m' ldb rdb X).
    { intros p. destruct (decide (is_Some (r_at C m p))) as [Hr|Hr]; [right; left; by apply r_paths|].
      destruct (decide (is_Some (r_at C m' p))) as [Hr'|Hr']; [right; right; by apply r_paths|].
      destruct (decide (is_Some (l_at C m p))) as [Hl|Hl]; [right; left; by apply l_paths|].
      destruct (decide (is_Some (l_at C m' p))) as [Hl'|Hl']; [right; right; by apply l_paths|].
      apply eq_None_not_Some in Hr, Hr', Hl, Hl'. left. by rewrite Hr, Hr', Hl, Hl'. }
    constructor; [done|done|..].
    - assert (Hi : ∀ (m0 : fs) k n, m0 !! k = Some n → k ∈ (map_to_list m0).*1).
      { intros m0 k n E. apply elem_of_list_fmap. exists (k, n). by rewrite elem_of_map_to_list. }
      intros k Hk. destruct (m !! k) as [n|] eqn:E; [rewrite <- E; apply (proj1 H1); eauto|].
      destruct (m' !! k) as [n'|] eqn:E'; [|done]. rewrite <- E, <- E'. apply (proj2 H1); eauto.
    - intros x n Hn. destruct (H2 (exclude_dir C ++ [x], n)) as [?|Hf]; [by apply elem_of_map_to_list|by eexists|by left|]. right. destruct n; [by eauto|done..].
    - intros p. destruct (Hp p) as [[Hr _]|[Hi|Hi]]; [by left|by apply (proj1 H3)|by apply (proj2 H3)].
    - intros p. destruct (Hp p) as [[_ Hl]|Hi]; [by left|].
      assert (like (l_at C m' p) (l_at C m p) ∨ (is_Some (ldb !! p) ∧ done_here p = true)) as [?|[Hk Hd]] by (destruct Hi as [Hi|Hi]; [by apply (proj1 H3)|by apply (proj2 H3)]); [by left|right].
      split; [done|]. unfold done_here in Hd. destruct (merged p) as [[c t| |]|], (r_at C m' p) as [[c1 t1| |]|]; try done. exists c, t. split; [done|].
      destruct (l_at C m' p) as [[c2 t2|k t2|]|]; try done; apply bool_decide_eq_true in Hd as [[= <- <-] Hd]; (split; [done|]).
      + injection Hd as <- <-. by left.
      + right. subst k. eauto.
  Qed.
End check.

(** As in [exN], without the entries that go to the trash or leave the local
    directory. *)
Definition exH : world :=
  let gone := {[ pL ++ e "gl"; pR ++ e "del" ]} : pset in
  world_of (filter (λ kn, kn.1 ∉ gone) fsN) (delete (e "gl") (delete (e "del") ldbN)) (delete (e "del") rdbN).
Definition nth_state (C : conf) (w : world) (n : nat) : world := default w ((sync_main C (ret tt) w).1.1 !! n).
(** Cut off when the changed files have been sent, and the next time when the
    local copies are replaced. *)
Definition exH1 : world := nth_state exC exH 12.
Definition exH2 : world := nth_state exC (reboot exH1) 23.
Definition cut_check (C : conf) (last_sync : Z) (X : pset) (w w1 w2 : world) : Prop :=
  wf_fs (w_fs w2) ∧ dir_at (w_fs w2) (c_L C) ∧ dir_at (w_fs w2) (c_R C) ∧ dir_at (w_fs w2) (exclude_dir C) ∧ valid_name (c_id C)
  ∧ match w_fs w2 !! exclude_file C with Some (File _ _) | None => True | _ => False end
  ∧ between_check C (w_fs w1) (w_ldb w) (w_rdb w) last_sync X (w_fs w2)
  ∧ w_ldb w2 = w_ldb w ∧ w_rdb w2 = w_rdb w ∧ w_last w2 = w_last w.
Global Instance cut_check_dec C last_sync X w w1 w2 : Decision (cut_check C last_sync X w w1 w2).
Proof. unfold cut_check. destruct (w_fs w2 !! exclude_file C) as [[]|]; apply _. Defined.
Lemma cut_checked C last_sync X w w1 w2 :
  c_L C ≠ [] → cut_check C last_sync X w w1 w2 → cut_off C last_sync X w w1 → cut_off C last_sync X w w2.
Proof.
  intros HL (H1 & H2 & H3 & H4 & H5 & H6 & H7 & H8 & H9 & H10) Hw. apply (co_again _ _ _ _ w1); try done.
  eapply between_checked; [by split|split; [done|done|]|done]. destruct (w_fs w2 !! exclude_file C) as [[]|]; [eauto|done|done|by left].
Qed.
Example C69_between_ex :
  any_order (at_ exC 50 60 70) ∧ w_last exH = Some 10%Z ∧ clean exC (w_fs exH) (w_ldb exH) (w_rdb exH) 10 XN
  ∧ cut_off exC 10 XN exH exH2 ∧ excluded_now (at_ exC 50 60 70) (w_fs exH2) = XN
  ∧ Forall (λ kn, w_fs exH2 !! kn.1 = Some kn.2 ∧ w_fs exH !! kn.1 ≠ Some kn.2)
    [(pR ++ e "m", File (lit "m2") 15); (pR ++ e "nd" ++ e "f", File (lit "new") 15); (pL ++ e "rm", File (lit "rm2") 16)]%Z
  ∧ w_fs exH2 !! (pR ++ e "del2") = None ∧ is_Some (w_fs exH !! (pR ++ e "del2"))
  ∧ r_at exC (w_fs exH) (e "n2") ≠ None ∧ l_at exC (w_fs exH2) (e "n2") = None.
Proof.
  split; [done|]. split; [done|]. split; [apply clean_checked; decided|].
  split; [apply (cut_checked _ _ _ _ exH1); [done|decided|]; apply (cut_checked _ _ _ _ exH); [done|decided|constructor]|].
  split; [decided|]. decided.
Qed.
