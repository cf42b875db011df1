(** A sync with conflicts, as the command that a user starts. *)
From Coq Require Import QArith Qcanon.
From Verif Require Export MergeClashRun Prop_Merge.
From stdpp Require Import options.

Lemma idle_clash C w last_sync : let X := excluded_now C (w_fs w) in let m := w_fs w in
  any_order C → idle C w → w_last w = Some last_sync → calm C m (w_ldb w) (w_rdb w) last_sync X → newer_here C m (w_ldb w) (w_rdb w) last_sync →
  let mv := mv C m (w_ldb w) (w_rdb w) last_sync in let lv := lv C m (w_ldb w) (w_rdb w) last_sync in
  wp (sync_main C (ret tt)) (csafe C w last_sync X)
    (λ r w', r = Ok tt ∧ resolved C m (w_ldb w) (w_rdb w) last_sync X (w_fs w') ∧ trash_holds C m (w_ldb w) (w_fs w')
      ∧ outcome C mv lv last_sync X (w_fs w') ∧ recorded C (wv C w last_sync) last_sync X w'
      ∧ settled C (wv C w last_sync) last_sync X (crow C w last_sync X) (w_fs w') (w_ldb w')) w.
Proof.
  intros X m [Hi Hr] [_ Hb] Hl Hc Hn mv lv.
  assert (v_ldb w = w_ldb w) as Hvl by by rewrite <- Hb. assert (v_rdb w = w_rdb w) as Hvr by by rewrite <- Hb.
  assert (FMProofs.fresh w) as Hfresh by by rewrite <- Hb.
  eapply wp_mono; [apply (clash_sync_wp C w last_sync X Hc Hi Hr Hvl Hvr Hfresh Hl Hn); done|]. 
  intros r w' (-> & Hoc & Hth & Hre & Hse). split; [done|].
  split; [by apply (outcome_resolved C w last_sync X Hc Hi Hr Hvl Hvr Hfresh Hl Hn)|].
  split; [by apply (trash_holds_v C w last_sync X Hc Hi Hr Hvl Hvr Hfresh Hl Hn)|]. done.
Qed.

(** A state without clashes has no conflicts to settle. *)
Lemma clean_newer C m ldb rdb last_sync X : clean C m ldb rdb last_sync X → newer_here C m ldb rdb last_sync.
Proof.
  intros Hc. assert (∀ p, ¬ clash C m ldb rdb last_sync p) as Hn by apply (cl_no_clash _ _ _ _ _ _ Hc).
  split; [intros p ???? Hp|intros p Hp|intros _ p Hp]; by apply Hn in Hp.
Qed.
