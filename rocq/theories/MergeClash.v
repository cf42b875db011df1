(** Conflicts: if the local version of each file in conflict is the newer one,
    the sync amounts to that of a state without conflicts, in which the older
    versions have been moved to their conflict names. *)
From Coq Require Import QArith Qcanon.
From Verif Require Export MergeEnd ConflictProofs.
From stdpp Require Import options.

(** A conflict name is not the program's directory. *)
Lemma conflict_name_len C d x y : valid_comps d → valid_name x → conflict_name C (d ++ [x]) = d ++ [y] → 10 ≤ length y.
Proof.
  intros Hd Hx E. destruct (conflict_name_spec C d x Hd Hx) as (y' & E' & Hv & _ & Et). rewrite E' in E. apply app_inj_tail in E as [_ ->].
  destruct (splitext (rel_path (d ++ [x]))) as [n e] eqn:Es. rewrite (timestamp_path_conflict _ _ _ _ Es) in Et.
  pose proof (f_equal length Et) as El. pose proof (f_equal length (splitext_app _ _ _ Es)) as Es'.
  pose proof (f_equal length (rel_path_head d x y Hx)) as G1. pose proof (f_equal length (head_raw_rel d x Hx)) as G2.
  rewrite !app_length in *. change (length (lit "_conflict-")) with 10 in El. lia.
Qed.
Lemma conflict_name_ours C p : ours p → ours (conflict_name C p).
Proof.
  intros (Hp & Hv & Hz). destruct (conflict_name_parent C p Hp Hv) as (Epar & Hvc & Hcn & Hcne). split; [done|]. split; [done|].
  intros Hzc. destruct (snoc_parent p Hp) as [x Hx]. destruct (snoc_parent _ Hcn) as [y Hy]. rewrite Epar in Hy.
  rewrite Hy in Hzc. destruct (parent p) as [|z d] eqn:Ed.
  - apply prefix_app_r with (l3 := []) in Hzc. rewrite app_nil_r in Hzc. cbn [app] in *.
    assert (10 ≤ length y).
    { apply (conflict_name_len C [] x y); [by apply Forall_nil| |by rewrite <-Hx]. rewrite Hx in Hv. by apply valid_one. }
    destruct Hzc as [s E]. unfold zielen_dir in E. injection E as E _. subst y. cbn in H. lia.
  - apply Hz. destruct Hzc as [s E]. unfold zielen_dir in *. rewrite Hx. injection E as E _. subst z. eexists. reflexivity.
Qed.

Section shift.
  Context (C : conf) (root : path) (m0 : fs) (Hwf0 : wf_fs m0).
  Context (l : list path) (Hnd : NoDup l).
  Context (Hl : ∀ p, p ∈ l → p ≠ [] ∧ ∃ n, m0 !! (root ++ p) = Some n ∧ is_Dir n = false).
  Context (Hfree : ∀ p, p ∈ l → m0 !! (root ++ conflict_name C p) = None).
  Definition shift (ps : list path) : fs := foldl (λ m p, move (root ++ p) (root ++ conflict_name C p) m) m0 ps.
  Lemma shift_shifted pre : pre `prefix_of` l → shifted C root m0 pre (shift pre).
  Proof using Hl Hfree Hwf0 Hnd.
    induction pre as [|p pre IH] using rev_ind; intros Hp; [by apply shifted_nil|].
    unfold shift. rewrite foldl_app. cbn [foldl]. fold (shift pre).
    assert (pre `prefix_of` l) as Hp' by (etrans; [by apply prefix_app_r|exact Hp]). destruct Hp as [s Hs]. rewrite <-app_assoc in Hs.
    apply (shifted_snoc C root m0 Hwf0 l Hl Hfree).
    - intros q Hq. rewrite Hs. set_solver.
    - rewrite Hs. set_solver.
    - rewrite Hs in Hnd. apply NoDup_app in Hnd as (_ & Hd & _). intros Hin. apply (Hd p Hin). left.
    - by apply IH.
  Qed.
End shift.

Section clash.
  Set Default Proof Using "Type*".
  Context (C : conf) (m : fs) (ldb : lmap) (rdb : rmap) (last : Z) (X : pset).
  Local Notation L := (c_L C).
  Local Notation R := (c_R C).
  Local Notation l_at := (l_at C m).
  Local Notation r_at := (r_at C m).
  Local Notation known := (known ldb).
  Local Notation stray := (stray C m ldb X).
  Local Notation merged := (merged C m ldb last X).
  Local Notation new_l := (new_l C m ldb X).
  Local Notation gone_l := (gone_l C m ldb).
  Local Notation gone_r := (gone_r C m ldb).
  Local Notation edited_l := (edited_l C m ldb last).
  Local Notation edited_r := (edited_r C m ldb rdb last).
  Local Notation trashed := (trashed C m ldb).
  Local Notation clash := (clash C m ldb rdb last).
  Local Notation cn := (conflict_name C).

  (** ** The conflicts that are covered *)
  Record newer_here : Prop := {
    nh_newer : ∀ p c t c' t', clash p → l_at p = Some (File c t) → r_at p = Some (File c' t') → (t' < t)%Z;
    (** The conflict name is not in use. *)
    nh_free : ∀ p, clash p → l_at (cn p) = None ∧ r_at (cn p) = None ∧ ¬ known (cn p);
    (** With "InflatePriority": a file of the last sync is still there. *)
    nh_inflate : c_inflate C = true → ∀ p, clash p →
      ∃ q, ¬ clash q ∧ ld_dir <$> ldb !! q = Some false ∧ is_Some (l_at q) ∧ is_Some (r_at q)
  }.
  Context (H : calm C m ldb rdb last X) (Hn : newer_here).

  Definition CL : pset := filter clash (dom (tree m L)).
  Lemma elem_of_CL p : p ∈ CL ↔ clash p.
  Proof using Type.
    unfold CL. rewrite elem_of_filter, elem_of_dom, <-l_at_tree. split; [by intros [? _]|]. intros Hc. split; [done|].
    destruct Hc as (c & t & _ & _ & E & _). by eexists.
  Qed.
  (** A conflict name. *)
  Definition named (p : path) : Prop := ∃ q, clash q ∧ p = cn q.
  Global Instance named_dec p : Decision (named p).
  Proof using Type.
    destruct (decide (set_Exists (λ q, p = cn q) CL)) as [Hs|Hs]; [left|right].
    - destruct Hs as (q & Hq & E). exists q. split; [by apply elem_of_CL|done].
    - intros (q & Hq & E). apply Hs. exists q. split; [by apply elem_of_CL|done].
  Defined.

  Lemma clash_at p : clash p → ours p ∧ ¬ stray p ∧ ∃ c t c' t', l_at p = Some (File c t) ∧ r_at p = Some (File c' t').
  Proof.
    intros (c & t & c' & t' & El & Er & _). split; [|split].
    - apply r_at_some in Er as (Hp & Hz & Er). split; [done|]. split; [|done]. apply (wf_valid m (m_wf _ _ _ _ _ _ H)) in Er.
      by apply valid_app in Er as [_ ?].
    - intros Hs. rewrite (cl_stray _ _ _ _ _ _ H p Hs) in Er. done.
    - eauto 10.
  Qed.
  Lemma clash_ours p : clash p → ours p.
  Proof. apply clash_at. Qed.
  Lemma cn_ours p : clash p → ours (cn p).
  Proof. intros Hc. by apply conflict_name_ours, clash_ours. Qed.
  Lemma cn_parent p : clash p → parent (cn p) = parent p ∧ cn p ≠ p.
  Proof. intros (Hp & Hv & _)%clash_ours. by destruct (conflict_name_parent C p Hp Hv) as (? & ? & ? & ?). Qed.
  Lemma cn_inj p q : clash p → clash q → cn p = cn q → p = q.
  Proof. intros (Hp & Hv & _)%clash_ours (Hq & Hw & _)%clash_ours. by apply conflict_name_inj. Qed.
  Lemma named_at p : named p → l_at p = None ∧ r_at p = None ∧ ¬ known p ∧ ¬ clash p ∧ ours p ∧ rdb !! p = None ∧ merged p = None.
  Proof.
    intros (q & Hq & ->). destruct (nh_free Hn q Hq) as (El & Er & Hk). split_and!; [done..| |by apply cn_ours| |].
    - intros (c & t & _ & _ & E & _). congruence.
    - destruct (rdb !! cn q) as [d|] eqn:E; [|done]. destruct (cl_unlisted _ _ _ _ _ _ H (cn q)) as [?|[? ?]]; [by eexists|done|congruence].
    - unfold Merge.merged. rewrite El, Er. destruct (ldb !! cn q) eqn:E; [|done]. destruct Hk. by eexists.
  Qed.
  (** Directories are not in conflict. *)
  Lemma clash_file p q : clash p → q `prefix_of` p → q ≠ p → ¬ clash q ∧ ¬ named q.
  Proof.
    intros Hc Hq Hne. destruct (clash_at p Hc) as (_ & _ & c & t & c' & t' & El & Er).
    destruct (decide (q = [])) as [->|Hq0].
    - split; [intros Hx; by destruct (clash_ours _ Hx)|]. intros Hx. by destruct (named_at _ Hx) as (_ & _ & _ & _ & (? & _) & _).
    - destruct (l_at_up _ _ _ _ _ _ H p q _ El Hq Hne Hq0) as [t0 E]. split.
      + intros (? & ? & ? & ? & E' & _). congruence.
      + intros Hx. destruct (named_at _ Hx) as (E' & _). congruence.
  Qed.
  Lemma clash_below p q : clash q → q `prefix_of` p → q ≠ p → l_at p = None ∧ r_at p = None ∧ ¬ named p.
  Proof.
    intros Hc Hq Hne. destruct (clash_at q Hc) as (Ho & _ & c & t & c' & t' & El & Er). split; [|split].
    - destruct (l_at p) as [n|] eqn:E; [|done]. destruct (l_at_up _ _ _ _ _ _ H p q _ E Hq Hne) as [t0 E']; [apply Ho|]. congruence.
    - destruct (r_at p) as [n|] eqn:E; [|done]. destruct (r_at_up _ _ _ _ _ _ H p q _ E Hq Hne) as [t0 E']; [apply Ho|]. congruence.
    - intros (r & Hr & ->). destruct (cn_parent r Hr) as [Ep _]. assert (q `prefix_of` parent r) as Hqr.
      { rewrite <-Ep. by apply prefix_strict_parent. }
      assert (q `prefix_of` r) as Hqr' by (etrans; [exact Hqr|apply parent_prefix]).
      destruct (clash_file r q Hr Hqr') as [? _]; [|done]. intros ->. pose proof (parent_len r (proj1 (clash_ours _ Hr))).
      apply prefix_length in Hqr. lia.
  Qed.

  (** ** The state without conflicts *)
  Definition mv : fs := shift C R m (elements CL).
  Definition lv : lmap := filter (λ kv, kv.1 ∉ CL) ldb.
  Definition rv : rmap := filter (λ kv, kv.1 ∉ CL) rdb.
  Lemma mv_shifted : shifted C R m (elements CL) mv.
  Proof.
    unfold mv. apply (shift_shifted C R m (m_wf _ _ _ _ _ _ H) (elements CL)); [apply NoDup_elements|..|done].
    - intros p Hp%elem_of_elements%elem_of_CL. destruct (clash_at p Hp) as (Ho & _ & c & t & c' & t' & _ & Er). split; [apply Ho|].
      exists (File c' t'). apply r_at_some in Er. naive_solver.
    - intros p Hp%elem_of_elements%elem_of_CL. destruct (nh_free Hn p Hp) as (_ & Er & _). destruct (cn_ours p Hp) as (? & _ & ?).
      by rewrite <-r_at_ne.
  Qed.
  Lemma mv_other k : (∀ p, clash p → k ≠ R ++ p ∧ k ≠ R ++ cn p) → mv !! k = m !! k.
  Proof.
    intros Hk. apply (sh_rest _ _ _ _ _ mv_shifted). intros p Hp%elem_of_elements%elem_of_CL. by apply Hk.
  Qed.
  Lemma mv_l q : mv !! (L ++ q) = m !! (L ++ q).
  Proof. apply mv_other. intros p _. split; eapply apart_ne, (cl_apart _ _ _ _ _ _ H). Qed.
  Lemma mv_out k : ¬ below k R → mv !! k = m !! k.
  Proof.
    intros Hk. apply mv_other. intros p Hp. split; intros ->; apply Hk, below_app_ne; [apply (clash_ours p Hp)|apply (cn_ours p Hp)].
  Qed.
  Lemma mv_util k : util_dir C `prefix_of` k → mv !! k = m !! k.
  Proof.
    intros Hk. apply mv_other. intros p Hp. split; intros ->; unfold util_dir in Hk; apply prefix_app_inv in Hk; [by apply (clash_ours p Hp)|by apply (cn_ours p Hp)].
  Qed.
  Lemma l_v p : Merge.l_at C mv p = l_at p.
  Proof. unfold Merge.l_at. case_decide; [done|]. apply mv_l. Qed.
  Lemma r_v_clash p : clash p → Merge.r_at C mv p = None.
  Proof.
    intros Hp. destruct (clash_ours p Hp) as (? & _ & ?). rewrite r_at_ne by done. apply (sh_old _ _ _ _ _ mv_shifted). by apply elem_of_elements, elem_of_CL.
  Qed.
  Lemma r_v_cn p : clash p → Merge.r_at C mv (cn p) = r_at p.
  Proof.
    intros Hp. destruct (clash_ours p Hp) as (? & _ & ?). destruct (cn_ours p Hp) as (? & _ & ?). rewrite !r_at_ne by done.
    apply (sh_new _ _ _ _ _ mv_shifted). by apply elem_of_elements, elem_of_CL.
  Qed.
  Lemma r_v p : ¬ clash p → ¬ named p → Merge.r_at C mv p = r_at p.
  Proof.
    intros Hc Hnn. unfold Merge.r_at. case_decide; [done|]. apply mv_other. intros q Hq. split; intros E%app_inv_head; [by subst q|].
    apply Hnn. by exists q.
  Qed.
  Lemma r_v_inv p n : Merge.r_at C mv p = Some n → (¬ clash p ∧ ¬ named p ∧ r_at p = Some n) ∨ (∃ q, clash q ∧ p = cn q ∧ r_at q = Some n).
  Proof.
    intros E. destruct (decide (clash p)) as [Hc|Hc]; [by rewrite r_v_clash in E|]. destruct (decide (named p)) as [(q & Hq & ->)|Hnn].
    - right. exists q. by rewrite r_v_cn in E.
    - left. by rewrite r_v in E.
  Qed.
  Lemma lv_lookup p : lv !! p = if decide (clash p) then None else ldb !! p.
  Proof using Type.
    unfold lv. rewrite map_filter_lookup. destruct (ldb !! p) as [d|]; cbn; [|by case_decide]. 
    destruct (decide (clash p)) as [Hc|Hc].
    - rewrite option_guard_False; [done|]. intros Hx. by apply Hx, elem_of_CL.
    - rewrite option_guard_True; [done|]. by rewrite elem_of_CL.
  Qed.
  Lemma rv_lookup p : rv !! p = if decide (clash p) then None else rdb !! p.
  Proof using Type.
    unfold rv. rewrite map_filter_lookup. destruct (rdb !! p) as [d|]; cbn; [|by case_decide]. 
    destruct (decide (clash p)) as [Hc|Hc].
    - rewrite option_guard_False; [done|]. intros Hx. by apply Hx, elem_of_CL.
    - rewrite option_guard_True; [done|]. by rewrite elem_of_CL.
  Qed.
  Lemma known_v p : Merge.known lv p ↔ known p ∧ ¬ clash p.
  Proof using Type. unfold Merge.known. rewrite lv_lookup. case_decide; split; [by intros [? ?]|tauto|done|tauto]. Qed.
  Lemma stray_v p : Merge.stray C mv lv X p ↔ stray p.
  Proof.
    unfold Merge.stray. rewrite l_v, known_v. unfold safe_entry. rewrite mv_l. split; intros (Hl & Hk & Hx); split; try done; (split; [|done]); [|tauto].
    destruct (decide (clash p)) as [Hc|]; [exfalso|tauto]. destruct (clash_at p Hc) as (_ & Hns & c & t & c' & t' & El & Er).
    assert (Merge.known ldb p) as Hkp. { destruct (decide (known p)); [done|]. exfalso. apply Hns. split; [done|]. split; done. }
    destruct Hx as [Hx|Hx]; [by apply (cl_excluded _ _ _ _ _ _ H p Hx)|]. apply Hx.
    apply l_at_some in El as [_ El]. by rewrite El.
  Qed.
  Lemma gone_l_v p : Merge.gone_l C mv lv p ↔ gone_l p.
  Proof.
    unfold Merge.gone_l. rewrite known_v, l_v. split; [tauto|]. intros [Hk El]. split; [|done]. split; [done|].
    intros (c & t & _ & _ & E & _). congruence.
  Qed.
  Lemma gone_r_v p : Merge.gone_r C mv lv p ↔ gone_r p.
  Proof.
    unfold Merge.gone_r. rewrite known_v. split.
    - intros [[Hk Hc] Er]. split; [done|]. rewrite r_v in Er; [done|done|]. intros Hx. by apply named_at in Hx as (_ & _ & ? & _).
    - intros [Hk Er]. assert (¬ clash p) as Hc by (intros (c & t & c' & t' & _ & E & _); congruence). split; [done|].
      rewrite r_v; [done|done|]. intros Hx. by apply named_at in Hx as (_ & _ & ? & _).
  Qed.
  Lemma edited_l_v p : Merge.edited_l C mv lv last p ↔ edited_l p ∧ ¬ clash p.
  Proof. unfold Merge.edited_l. rewrite known_v, l_v. tauto. Qed.
  Lemma edited_r_v p : Merge.edited_r C mv lv rv last p ↔ edited_r p ∧ ¬ clash p.
  Proof.
    unfold Merge.edited_r. rewrite known_v, rv_lookup. destruct (decide (clash p)) as [Hc|Hc].
    - split; [|tauto]. intros [[[_ ?] _]|(d & ? & _)]; done.
    - split.
      + intros [[[Hk _] (c & t & E & Ht)]|Hx]; (split; [|done]); [left|by right]. split; [done|]. exists c, t. split; [|done].
        rewrite r_v in E; [done..|]. intros Hx. by apply named_at in Hx as (_ & _ & ? & _).
      + intros [[[Hk (c & t & E & Ht)]|Hx] _]; [left|by right]. split; [done|]. exists c, t. split; [|done].
        rewrite r_v; [done..|]. intros Hx. by apply named_at in Hx as (_ & _ & ? & _).
  Qed.
  Lemma new_l_v p : Merge.new_l C mv lv X p ↔ new_l p ∨ clash p.
  Proof.
    unfold Merge.new_l. rewrite l_v, known_v, stray_v. split.
    - intros (Hl & Hk & Hs). destruct (decide (clash p)); [by right|left]. split; [done|]. split; [|done]. tauto.
    - intros [(Hl & Hk & Hs)|Hc]; [split_and!; [done|tauto|done]|]. destruct (clash_at p Hc) as (_ & Hns & c & t & c' & t' & El & Er).
      split_and!; [by eexists|tauto|done].
  Qed.
  Lemma clash_changed p : clash p → new_l p ∨ edited_l p.
  Proof.
    intros Hc. destruct (clash_at p Hc) as (_ & Hns & c & t & c' & t' & El & Er). destruct Hc as (_ & _ & _ & _ & _ & _ & _ & [[He _]|Hk]); [by right|].
    left. split; [by eexists|]. done.
  Qed.
  Lemma up_v p : Merge.new_l C mv lv X p ∨ Merge.edited_l C mv lv last p ↔ new_l p ∨ edited_l p.
  Proof.
    rewrite new_l_v, edited_l_v. pose proof (clash_changed p). destruct (decide (clash p)); tauto.
  Qed.
  Lemma trashed_v p : Merge.trashed C mv lv p ↔ trashed p.
  Proof.
    unfold Merge.trashed. rewrite !gone_l_v, lv_lookup. case_decide as Hc; [|done]. split; [intros (_ & _ & _ & d & ? & _); done|].
    intros (_ & [_ El] & _). exfalso. destruct Hc as (c & t & _ & _ & E & _). congruence.
  Qed.
  Lemma gone_l_apart p q : gone_l p → p `prefix_of` q → ¬ clash q ∧ ¬ named q.
  Proof.
    intros [Hk El] Hpq. assert (p ≠ []) as Hp0 by apply (known_ours _ _ _ _ _ _ H p Hk). split.
    - intros (c & t & _ & _ & E & _). rewrite (l_at_down _ _ _ _ _ _ H q p) in E; done.
    - intros Hx. pose proof (named_at q Hx) as (_ & _ & Hkq & _). destruct Hx as (r & Hr & ->).
      assert (p `prefix_of` r) as Hpr.
      { etrans; [apply prefix_strict_parent; [exact Hpq|by intros ->]|]. destruct (cn_parent r Hr) as [-> _]. apply parent_prefix. }
      destruct Hr as (c & t & _ & _ & E & _). rewrite (l_at_down _ _ _ _ _ _ H r p) in E; done.
  Qed.
  (** The merge *)
  Lemma merged_v_clash p : clash p → Merge.merged C mv lv last X p = l_at p.
  Proof.
    intros Hc. destruct (clash_at p Hc) as (_ & Hns & c & t & c' & t' & El & Er). unfold Merge.merged.
    rewrite lv_lookup, decide_True, l_v, El, r_v_clash by done. by rewrite decide_False by by rewrite stray_v.
  Qed.
  Lemma merged_v_cn p : clash p → Merge.merged C mv lv last X (cn p) = r_at p.
  Proof.
    intros Hc. destruct (clash_at p Hc) as (_ & _ & c & t & c' & t' & El & Er).
    destruct (named_at (cn p)) as (E1 & E2 & Hk & Hnc & _); [by exists p|]. unfold Merge.merged.
    rewrite lv_lookup, decide_False, l_v, r_v_cn, E1, Er by done. destruct (ldb !! cn p) eqn:E; [|done]. destruct Hk. by eexists.
  Qed.
  Lemma merged_v p : ¬ clash p → ¬ named p → Merge.merged C mv lv last X p = merged p.
  Proof.
    intros Hc Hnn. unfold Merge.merged. rewrite lv_lookup, decide_False, l_v, r_v by done.
    destruct (ldb !! p); [done|]. destruct (l_at p); [|done]. destruct (r_at p); [done|].
    destruct (decide (Merge.stray C mv lv X p)) as [Hs|Hs]; rewrite stray_v in Hs; [by rewrite decide_True|by rewrite decide_False].
  Qed.

  Lemma dir_v k : ¬ below k R ∨ util_dir C `prefix_of` k → dir_at m k → dir_at mv k.
  Proof.
    intros Hk [t Ht]. exists t. destruct (decide (k = [])) as [->|Hk0]; [done|]. rewrite node_at_ne in * by done.
    rewrite <-Ht. destruct Hk; [by apply mv_out|by apply mv_util].
  Qed.
  Lemma clean_v : clean C mv lv rv last X.
  Proof.
    pose proof (cl_apart _ _ _ _ _ _ H) as Hap.
    assert (Hnk : ∀ p, named p → ¬ known p) by (intros p Hx; by apply named_at in Hx as (_ & _ & ? & _)).
    assert (Hfile : ∀ p b, clash p → ld_dir <$> ldb !! p = Some b ∨ rd_dir <$> rdb !! p = Some b → b = false).
    { intros p b Hc Hb. destruct (clash_at p Hc) as (_ & _ & c & t & c' & t' & El & Er). by rewrite <-(cl_kind_r _ _ _ _ _ _ H p b _ Hb Er). }
    apply clean_of; [apply calm_intro|].
    - destruct (cl_mounted _ _ _ _ _ _ H) as [Hwf HL HR Hne]. split; [apply (sh_wf _ _ _ _ _ mv_shifted)|..|done].
      + apply dir_v; [|done]. left. intros (x & s & E). destruct Hap as [_ Hap]. apply Hap. rewrite E. by apply prefix_app_r.
      + apply dir_v; [|done]. left. intros (x & s & E). apply (f_equal length) in E. rewrite app_length in E. simpl in E. lia.
    - done.
    - destruct (cl_util _ _ _ _ _ _ H) as [Hd Hid Hf]. assert (util_dir C `prefix_of` exclude_dir C) as He by by eexists. split.
      + apply dir_v; [by right|done].
      + done.
      + rewrite mv_util; [done|]. unfold exclude_file. etrans; [exact He|by eexists].
    - apply dir_v; [right; by eexists|]. apply (cl_trash _ _ _ _ _ _ H).
    - intros p. rewrite l_v. apply (cl_no_util _ _ _ _ _ _ H).
    - intros p b. rewrite lv_lookup. case_decide as Hc; [done|]. intros Hb. destruct (cl_rows_l _ _ _ _ _ _ H p b Hb) as [Ho Hp]. split; [done|].
      destruct Hp as [Hp|Hp]; [by left|right]. rewrite lv_lookup. case_decide as Hc'; [|done]. by apply (Hfile _ true) in Hc'; [|left].
    - intros p b. rewrite rv_lookup. case_decide as Hc; [done|]. intros Hb. destruct (cl_rows_r _ _ _ _ _ _ H p b Hb) as [Ho Hp]. split; [done|].
      destruct Hp as [Hp|Hp]; [by left|right]. rewrite rv_lookup. case_decide as Hc'; [|done]. by apply (Hfile _ true) in Hc'; [|right].
    - intros p b n. rewrite lv_lookup, l_v. case_decide; [done|]. apply (cl_kind_l _ _ _ _ _ _ H).
    - intros p b n. rewrite lv_lookup, rv_lookup. case_decide; [by intros [?|?]|]. intros Hb [(_ & _ & E)|(q & Hq & -> & E)]%r_v_inv.
      + by apply (cl_kind_r _ _ _ _ _ _ H p b n).
      + destruct (named_at (cn q)) as (_ & _ & Hk & _ & _ & Er & _); [by exists q|]. rewrite Er in Hb. destruct Hb as [Hb|Hb]; [|done].
        exfalso. apply Hk. unfold Merge.known. destruct (ldb !! cn q); [by eexists|done].
    - intros p b b'. rewrite lv_lookup, rv_lookup. case_decide; [done|]. apply (cl_kind _ _ _ _ _ _ H).
    - intros p [Hk Hc]%known_v [n Er]. rewrite rv_lookup, decide_False by done. apply r_v_inv in Er as [(_ & _ & E)|(q & Hq & -> & _)].
      + apply (cl_listed _ _ _ _ _ _ H); [done|by eexists].
      + by destruct (Hnk (cn q)); [exists q|].
    - intros p. rewrite rv_lookup. case_decide as Hc; [by intros [? ?]|]. intros Hr. rewrite known_v.
      assert (¬ named p) as Hnn. { intros Hx. apply named_at in Hx as (_ & _ & _ & _ & _ & E & _). rewrite E in Hr. by destruct Hr. }
      rewrite r_v by done. destruct (cl_unlisted _ _ _ _ _ _ H p Hr); tauto.
    - intros p t k [(_ & _ & E)|(q & _ & _ & E)]%r_v_inv; by apply (cl_link_r _ _ _ _ _ _ H) in E.
    - intros p t k. rewrite l_v, stray_v, known_v. intros E. destruct (cl_link_l _ _ _ _ _ _ H p t k E) as [[Hk Et]|]; [left|by right].
      split; [|done]. split; [done|]. intros (c & t' & _ & _ & E' & _). congruence.
    - intros p Hp. rewrite l_v, known_v. destruct (cl_excluded _ _ _ _ _ _ H p Hp). tauto.
    - intros p Hs%stray_v. destruct (decide (clash p)) as [Hc|Hc]; [by apply r_v_clash|]. rewrite r_v; [by apply (cl_stray _ _ _ _ _ _ H)|done|].
      intros Hx. apply named_at in Hx as (E & _). destruct Hs as ([? ?] & _). congruence.
    - intros p q Hs%stray_v Hqp Hne Hq0. rewrite stray_v, known_v. destruct (cl_stray_up _ _ _ _ _ _ H p q Hs Hqp Hne Hq0) as [?|[Hk Hr]]; [by left|right].
      assert (¬ clash q) as Hc.
      { destruct Hs as ([n El] & _). destruct (l_at_up _ _ _ _ _ _ H p q n El Hqp Hne Hq0) as [t E]. intros (? & ? & _ & _ & E' & _). congruence. }
      split; [done|]. rewrite r_v; [done..|]. intros Hx. by apply Hnk in Hx.
    - intros p q. rewrite !stray_v, l_v. apply (cl_stray_down _ _ _ _ _ _ H).
    - intros p x t k. rewrite stray_v, l_v. apply (cl_echo _ _ _ _ _ _ H).
    - intros p n n'. rewrite l_v. intros Hk El [(Hc & _ & E)|(q & Hq & -> & E)]%r_v_inv.
      + apply (cl_new_kind _ _ _ _ _ _ H p); [|done..]. intros Hkp. apply Hk. by apply known_v.
      + destruct (named_at (cn q)) as (E' & _); [by exists q|]. congruence.
    - intros p. rewrite gone_l_v, gone_r_v, edited_l_v, edited_r_v. intros Hg. destruct (cl_gone _ _ _ _ _ _ H p Hg). tauto.
    - intros p q. rewrite gone_l_v. intros Hg Hpq [n Er]. destruct (gone_l_apart p q Hg Hpq) as [Hc Hnn]. rewrite r_v in Er by done.
      apply known_v. split; [|done]. apply (cl_gone_l _ _ _ _ _ _ H p q); [done..|by eexists].
    - intros p q. rewrite gone_r_v, l_v. intros Hg Hpq Hl. apply known_v. split; [by apply (cl_gone_r _ _ _ _ _ _ H p q)|].
      intros (c & t & c' & t' & _ & E & _). destruct Hg as [Hk Er]. rewrite (r_at_down _ _ _ _ _ _ H q p) in E; [done|done| |done].
      apply (known_ours _ _ _ _ _ _ H p Hk).
    - intros p Hg%gone_l_v. rewrite rv_lookup. destruct (gone_l_apart p p Hg) as [Hc _]; [done|]. rewrite decide_False by done. by apply (cl_deleted _ _ _ _ _ _ H).
    - intros p t Hnw. rewrite l_v. intros El Er. assert (¬ clash p) as Hc by (intros (? & ? & _ & _ & E & _); congruence).
      apply new_l_v in Hnw as [Hnw|?]; [|done]. rewrite r_v in Er; [|done|intros Hx; apply named_at in Hx as (E & _); congruence].
      destruct (cl_empty _ _ _ _ _ _ H p t Hnw El Er) as [[x Hx]|Hx]; [left; exists x; by rewrite l_v|right; rewrite new_l_v; by left].
    - intros Hi (p & Hp). 
      assert (∃ q, ¬ clash q ∧ ld_dir <$> ldb !! q = Some false ∧ is_Some (l_at q) ∧ is_Some (r_at q)) as (q & Hq & Hd & Hl & Hr).
      { apply new_l_v in Hp as [Hp|Hp]; [|by apply (nh_inflate Hn Hi p)].
        destruct (cl_inflate _ _ _ _ _ _ H Hi) as (q & Hd & Hl & Hr); [by exists p|]. destruct (decide (clash q)) as [Hc|Hc]; [by apply (nh_inflate Hn Hi q)|eauto]. }
      exists q. rewrite lv_lookup, decide_False, l_v by done. split; [done|]. split; [done|]. rewrite r_v; [done..|].
      intros Hx. apply Hnk in Hx. apply Hx. unfold Merge.known. destruct (ldb !! q); [by eexists|done].
    - intros p q. rewrite !trashed_v. apply (cl_names _ _ _ _ _ _ H).
    - intros p x. rewrite trashed_v. intros Hp Hx. rewrite mv_util; [by eapply (cl_free _ _ _ _ _ _ H)|]. unfold trash_dir. rewrite <-app_assoc. by eexists.
    - intros x t k. rewrite mv_util; [apply (cl_trash_links _ _ _ _ _ _ H)|]. unfold trash_dir. rewrite <-app_assoc. by eexists.
    - intros p (c & t & c' & t' & El & Er & Hx). rewrite l_v in El. apply r_v_inv in Er as [(Hc & _ & Er)|(q & Hq & -> & _)].
      + apply Hc. exists c, t, c', t'. split; [done|]. split; [done|]. rewrite edited_l_v, edited_r_v, known_v in Hx. tauto.
      + destruct (named_at (cn q)) as (E' & _); [by exists q|]. congruence.
  Qed.
End clash.
