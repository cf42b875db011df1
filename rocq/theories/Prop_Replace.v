(** C40 and C63: what a sync does with a file that was changed at the end of the
    last sync, and with a file that has replaced a link. *)
From Coq Require Import QArith Qcanon.
From Verif Require Import Prop_Merge SyncEx.
From stdpp Require Import options.

(** ** C40: not true at the end of a sync either.
    The file is edited when the sync has done everything but to take the time of
    the last sync; the next sync does not see that, and replaces the file by the
    remote one. *)
Theorem C40_missed_refuted :
  ∃ C C' w p c c' t, any_order C ∧ any_order C' ∧ idle C w ∧ (c_now C <= t <= c_end C)%Z ∧ (c_end C < c_now C')%Z
    ∧ l_at C (w_fs w) p = Some (File c' 5%Z) ∧ c ≠ c'
    ∧ let '(_, w1, r1) := sync_main C (ret tt) w in
      r1 = Ok tt ∧ l_at C (w_fs w1) p = Some (File c' 5%Z)
      ∧ let '(_, w2, r2) := sync_main C' (ret tt) (reboot (upd (c_L C ++ p) (File c t) w1)) in
        r2 = Ok tt ∧ ∀ k t', w_fs w2 !! k ≠ Some (File c t').
Proof.
  exists exC, (at_ exC 100000 40 41), exM, (e "a"), (lit "edited"), (lit "aa"), 20%Z.
  split; [done|]. split; [done|]. split; [apply idle_of; mounted_now|]. split; [done|]. split; [done|]. split; [vm_compute; reflexivity|]. split; [done|].
  pose proof (run_witness exC (ret tt) exM (λ r1 w1, is_ok r1 && node_is (w_fs w1) (pL ++ e "a") (Some (File (lit "aa") 5))
    && let '(_, w2, r2) := sync_main (at_ exC 100000 40 41) (ret tt) (reboot (upd (pL ++ e "a") (File (lit "edited") 20) w1)) in
       is_ok r2 && lost (lit "edited") (w_fs w2))
    ltac:(vm_compute; reflexivity)) as H.
  destruct (sync_main exC (ret tt) exM) as [[tr1 w1] r1]. apply andb_true_iff in H as [[H1%is_ok_spec H2%node_is_spec]%andb_true_iff H].
  split; [exact H1|]. split; [exact H2|]. change (c_L exC) with pL.
  destruct (sync_main _ (ret tt) (reboot _)) as [[tr2 w2] r2]. apply andb_true_iff in H as [H3%is_ok_spec H4].
  split; [exact H3|]. by apply lost_spec.
Qed.
Print Assumptions C40_missed_refuted.

(** ** C63: the target of a link that was replaced by a file.
    The user has replaced the link [p] by a file; nothing outside the two
    directories changes, nor does any file in the remote directory that was not
    itself changed or deleted here.
    Missing: states with clashes, and links in the remote directory
    (C63_link_target_refuted). *)
Theorem C63_target_partial C w last_sync p tgt k c t :
  any_order C → idle C w → w_last w = Some last_sync → p ≠ [] →
  w_fs w !! (c_L C ++ p) = Some (Link tgt k) → (last_sync < t)%Z →
  let w0 := upd (c_L C ++ p) (File c t) w in
  clean C (w_fs w0) (w_ldb w0) (w_rdb w0) last_sync (excluded_now C (w_fs w0)) → p ∉ excluded_now C (w_fs w0) →
  let '(_, w', r) := sync_main C (ret tt) w0 in
  r = Ok tt
  ∧ r_at C (w_fs w') p = Some (File c t)
  ∧ (∀ q n, ¬ below q (c_L C) → ¬ below q (c_R C) → w_fs w !! q = Some n → w_fs w' !! q = Some n)
  ∧ (∀ q c' t', q ≠ p → r_at C (w_fs w) q = Some (File c' t') →
      ¬ gone_l C (w_fs w) (w_ldb w) q → ¬ edited_l C (w_fs w) (w_ldb w) last_sync q → r_at C (w_fs w') q = Some (File c' t')).
Proof.
  intros Ho Hi Hl Hp HL Ht w0 Hc Hx.
  assert (idle C w0) as Hi0. { split; [apply Hc|]. destruct Hi as [_ Hb]. unfold w0, upd. rewrite <- Hb. done. }
  pose proof (idle_sync C w0 last_sync Ho Hi0 Hl Hc) as [_ Hw]. destruct (sync_main C (ret tt) w0) as [[tr w'] r]. cbn [fst snd] in Hw.
  destruct Hw as (-> & Hoc & _). split; [done|].
  assert (HLl : ∀ q, q ≠ p → l_at C (w_fs w0) q = l_at C (w_fs w) q).
  { intros q Hq. unfold l_at, w0, upd. cbn [set_fs w_fs]. case_decide; [done|]. apply lookup_insert_ne. intros E%app_inv_head. done. }
  assert (HRr : ∀ q, r_at C (w_fs w0) q = r_at C (w_fs w) q).
  { intros q. unfold r_at, w0, upd. cbn [set_fs w_fs]. case_decide; [done|]. apply lookup_insert_ne. intros E.
    apply (apart_ne (c_L C) (c_R C) p q); [|done]. apply (cl_apart _ _ _ _ _ _ (cl_calm_x _ _ _ _ _ _ (cl_clean _ _ _ _ _ _ Hc))). }
  assert (Hcx := cl_clean _ _ _ _ _ _ Hc). assert (Hcc := cl_calm_x _ _ _ _ _ _ Hcx).
  assert (HLp : l_at C (w_fs w0) p = Some (File c t)).
  { unfold l_at, w0, upd. cbn [set_fs w_fs]. rewrite decide_False by done. apply lookup_insert. }
  assert (Hm : ∀ q n, is_Dir n = false → merged C (w_fs w0) (w_ldb w0) last_sync (excluded_now C (w_fs w0)) q = Some n → r_at C (w_fs w') q = Some n).
  { intros q n Hd E. pose proof (oc_remote _ _ _ _ _ _ Hoc q) as Hr. rewrite E in Hr. destruct n as [| |]; [| |done]; by destruct (r_at C (w_fs w') q) as [[]|]. }
  split; [|split].
  - apply Hm; [done|]. unfold merged. rewrite HLp. destruct (w_ldb w0 !! p) as [d|] eqn:Ed.
    + destruct (r_at C (w_fs w0) p) as [n|] eqn:Er; [by rewrite (proj2 (Z.ltb_lt _ _) Ht)|]. exfalso.
      assert (Merge.known (w_ldb w0) p) as Hk by (by exists d).
      apply (proj1 (cl_gone _ _ _ _ _ _ Hcc p (or_intror (conj Hk Er)))). split; [done|]. eauto.
    + assert (¬ Merge.known (w_ldb w0) p) as Hk by (unfold Merge.known; rewrite Ed; by intros [? ?]).
      destruct (r_at C (w_fs w0) p) as [n|] eqn:Er.
      * destruct n as [c' t'|t' k'|t'].
        -- destruct (decide (File c t = File c' t')) as [E|E]; [by rewrite E|]. exfalso. apply (cl_no_clash _ _ _ _ _ _ Hcx p). exists c, t, c', t'. auto 10.
        -- by apply (cl_link_r _ _ _ _ _ _ Hcc) in Er.
        -- by pose proof (cl_new_kind _ _ _ _ _ _ Hcc p _ _ Hk HLp Er).
      * rewrite decide_False; [done|]. intros (_ & _ & [?|Hs]); [done|]. apply Hs. intros t' k' E. apply l_at_some in HLp as [_ E']. congruence.
  - intros q n H1 H2 E. rewrite (oc_out _ _ _ _ _ _ Hoc) by done. unfold w0, upd. cbn [set_fs w_fs]. rewrite lookup_insert_ne; [done|].
    intros <-. apply H1. destruct p as [|x p]; [done|]. by exists x, p.
  - intros q c' t' Hq Er Hg He. apply Hm; [done|].
    assert (Hr0 : r_at C (w_fs w0) q = Some (File c' t')) by (by rewrite HRr).
    destruct (merged C (w_fs w0) (w_ldb w0) last_sync (excluded_now C (w_fs w0)) q) as [n|] eqn:E.
    + destruct (merged_inv _ _ _ _ _ _ Hcc q n E) as [(_ & ? & _)|[(He' & _)|(_ & _ & ?)]]; [congruence| |congruence].
      exfalso. apply He. destruct He' as (Hk & c1 & t1 & El & ?). rewrite HLl in El by done. split; [done|]. eauto.
    + exfalso. apply Hg. destruct (not_merged_r _ _ _ _ _ _ Hcc q E) as [Hk El]; [by eexists|]. split; [done|]. by rewrite <- HLl.
Qed.
Print Assumptions C63_target_partial.
(** [u] was a link to a file outside. *)
Example C63_target_ex :
  let w := upd (e "etc") (File (lit "conf") 3) exN in
  let w0 := upd (c_L exC ++ e "u") (File (lit "mine") 15) w in
  any_order exC ∧ idle exC w ∧ w_last w = Some 10%Z ∧ w_fs w !! (c_L exC ++ e "u") = Some (Link (lit "/etc") 3)
  ∧ excluded_now exC (w_fs w0) = XN ∧ clean exC (w_fs w0) (w_ldb w0) (w_rdb w0) 10 XN ∧ e "u" ∉ XN
  ∧ (¬ below (e "etc") (c_L exC) ∧ ¬ below (e "etc") (c_R exC) ∧ w_fs w !! e "etc" = Some (File (lit "conf") 3))
  ∧ r_at exC (w_fs w) (e "b") = Some (File (lit "bb") 5)
  ∧ ¬ gone_l exC (w_fs w) (w_ldb w) (e "b") ∧ ¬ edited_l exC (w_fs w) (w_ldb w) 10 (e "b").
Proof.
  cbv zeta. split; [done|]. split; [split; [mounted_now|done]|]. split; [done|]. split; [vm_compute; reflexivity|]. split; [decided|].
  split; [apply clean_checked; decided|]. split; [decided|]. split; [|decided].
  split; [intros (x & l & E); discriminate E|]. split; [intros (x & l & E); discriminate E|]. decided.
Qed.
