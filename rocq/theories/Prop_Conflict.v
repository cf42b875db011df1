(** C28: files that changed on both sides (filelogic.py 501-551, 695-726). *)
From Coq Require Import QArith Qcanon.
From Verif Require Import ConflictProofs SyncEx.
From stdpp Require Import options.

(** ** C28 *)
Section spec.
  Context (C : conf) (m : fs).
  Local Notation L := (c_L C).
  Local Notation R := (c_R C).
  (** Both versions, the older one under the conflict name on its side. *)
  Definition both_kept (m' : fs) (p : path) (nl nr : node) : Prop :=
    (older nl nr → m' !! (L ++ p) = None ∧ m' !! (L ++ conflict_name C p) = Some nl ∧ m' !! (R ++ p) = Some nr)
    ∧ (older nr nl → m' !! (R ++ p) = None ∧ m' !! (R ++ conflict_name C p) = Some nr ∧ m' !! (L ++ p) = Some nl)
    ∧ (mtime nl = mtime nr → m' !! (L ++ p) = Some nl ∧ m' !! (R ++ p) = Some nr).
  (** At any time, each version is under one of the names on its side. *)
  Definition both_somewhere (m' : fs) (p : path) (nl nr : node) : Prop :=
    (m' !! (L ++ p) = Some nl ∨ m' !! (L ++ conflict_name C p) = Some nl)
    ∧ (m' !! (R ++ p) = Some nr ∨ m' !! (R ++ conflict_name C p) = Some nr).
  (** What is to be uploaded and downloaded afterwards. *)
  Definition new_name (mine theirs : node) (p : path) : path := if (mtime mine <? mtime theirs)%Z then conflict_name C p else p.
End spec.

(** Conflict handling, if the conflict names are not taken: it succeeds; the
    newer version stays, the older is moved to its conflict name; nothing
    else changes; the uploads and downloads are told the new names; and both
    versions exist at every instant.  Partial: nothing is said about files
    changed in the same instant, of which one is lost in the end
    ([C28_equal_times_refuted]), nor about the rest of the sync. *)
Theorem C28_both_kept_partial C w lp rp :
  mounted C (w_fs w) → current C w → apart (c_L C) (c_R C) → (∀ l, c_iter C l ≡ₚ l) →
  let L := c_L C in let R := c_R C in let m := w_fs w in
  let clash := λ p, p ∈ lp ∧ p ∈ rp ∧ ¬ db_dir (v_ldb w) p in
  (∀ p, clash p → p ≠ [] ∧ ¬ zielen_dir `prefix_of` p ∧ ∃ nl nr,
     m !! (L ++ p) = Some nl ∧ m !! (R ++ p) = Some nr ∧ is_Dir nl = false ∧ is_Dir nr = false) →
  (∀ p, clash p → m !! (L ++ conflict_name C p) = None ∧ m !! (R ++ conflict_name C p) = None) →
  let '(tr, w', r) := handle_conflicts C lp rp w in
  (∃ up down, r = Ok (up, down)
    ∧ (∀ p nl nr, clash p → m !! (L ++ p) = Some nl → m !! (R ++ p) = Some nr →
         both_kept C (w_fs w') p nl nr ∧ new_name C nl nr p ∈ up ∧ new_name C nr nl p ∈ down)
    ∧ (∀ p, p ∈ lp → ¬ clash p → p ∈ up) ∧ (∀ p, p ∈ rp → ¬ clash p → p ∈ down))
  ∧ (∀ w1 p nl nr, w1 ∈ tr → clash p → m !! (L ++ p) = Some nl → m !! (R ++ p) = Some nr → both_somewhere C (w_fs w1) p nl nr)
  ∧ (∀ w1 k, w1 ∈ w' :: tr →
       (∀ p, clash p → k ∉ [L ++ p; L ++ conflict_name C p; R ++ p; R ++ conflict_name C p]) → w_fs w1 !! k = m !! k).
Proof.
  intros Hm Hc Hap Hit L R m clash Hcl Hfree.
  destruct (handle_conflicts C lp rp w) as [[tr w'] r] eqn:E.
  set (rest := λ w1 : world, ∀ k,
       (∀ p, clash p → k ∉ [L ++ p; L ++ conflict_name C p; R ++ p; R ++ conflict_name C p]) → w_fs w1 !! k = m !! k).
  set (some := λ w1 : world, ∀ p nl nr, clash p → m !! (L ++ p) = Some nl → m !! (R ++ p) = Some nr → both_somewhere C (w_fs w1) p nl nr).
  set (ends := λ (r : res (pset * pset)) (w' : world), ∃ up down, r = Ok (up, down)
    ∧ (∀ p nl nr, clash p → m !! (L ++ p) = Some nl → m !! (R ++ p) = Some nr →
         both_kept C (w_fs w') p nl nr ∧ new_name C nl nr p ∈ up ∧ new_name C nr nl p ∈ down)
    ∧ (∀ p, p ∈ lp → ¬ clash p → p ∈ up) ∧ (∀ p, p ∈ rp → ¬ clash p → p ∈ down)).
  assert (wp (handle_conflicts C lp rp) (λ w1, some w1 ∧ rest w1) (λ r w1, ends r w1 ∧ rest w1) w) as [H1 H2].
  2:{ rewrite E in H1, H2. cbn [fst snd] in H1, H2. rewrite Forall_forall in H1. split; [apply H2|]. split.
      - intros w1 p nl nr Hin. by apply (H1 w1).
      - intros w1 k [->|Hin]%elem_of_cons; [apply H2|by apply (H1 w1)]. }
  clear E tr w' r. unfold handle_conflicts.
  apply wp_bind. eapply wp_run; [exact (local_scan_run C w Hm true (λ _, Hc))|constructor|]. cbv beta iota.
  apply wp_bind. eapply wp_run; [exact (remote_scan_run C (set_lscan (tree (w_fs w) (c_L C)) w) Hm true (λ _, current_lscan C w Hc))|constructor|]. cbv beta iota.
  cbn [w_fs set_lscan]. fold m L R. apply wp_bind, wp_eval. cbn [v_ldb set_lscan set_rscan].
  set (w0 := set_rscan (tree m R) (set_lscan (tree m L) w)).
  assert (∀ p, p ∈ c_iter C (elements (lp ∩ rp)) ↔ p ∈ lp ∧ p ∈ rp) as Hel.
  { intros p. by rewrite Hit, elem_of_elements, elem_of_intersection. }
  assert (∀ p nl, p ≠ [] → m !! (L ++ p) = Some nl → tree m L !! p = Some nl) as HtL.
  { intros p nl ? ?. by apply tree_lookup. }
  assert (∀ p nr, p ≠ [] → ¬ zielen_dir `prefix_of` p → m !! (R ++ p) = Some nr → hide_util (tree m R) !! p = Some nr) as HtR.
  { intros p nr ? ? ?. apply hide_util_lookup. split; [by apply tree_lookup|done]. }
  destruct (conflicts_spec (v_ldb w) (tree m L) (hide_util (tree m R)) (c_iter C (elements (lp ∩ rp)))) as (rl & rr & Ec & Hrl & Hrr).
  { intros p [Hp1 Hp2]%Hel Hd. destruct (Hcl p) as (Hne & Hz & nl & nr & Hnl & Hnr & _); [done|].
    rewrite (HtL p nl), (HtR p nr) by done. eauto. }
  rewrite Ec. cbv beta iota. cbn [fst snd].
  (* the two sets in terms of the files *)
  assert (∀ p nl nr, clash p → m !! (L ++ p) = Some nl → m !! (R ++ p) = Some nr →
    (p ∈ rl ↔ older nl nr) ∧ (p ∈ rr ↔ older nr nl)) as Hset.
  { intros p nl nr Hp Hnl Hnr. destruct (Hcl p Hp) as (Hne & Hz & _). pose proof Hp as (Hp1 & Hp2 & Hp3).
    rewrite Hrl, Hrr, Hel. rewrite (HtL p nl), (HtR p nr) by done. split; (split; [naive_solver|]); intros; split_and!; eauto. }
  assert (∀ p, p ∈ rl ∨ p ∈ rr → clash p) as Hin.
  { intros p [(Hp & Hd & _)%Hrl|(Hp & Hd & _)%Hrr]; apply Hel in Hp as [? ?]; done. }
  clear Ec Hrl Hrr HtL HtR Hel.
  assert (∀ l : list path, c_iter C l ≡ₚ l) as Hit' by done.
  (* the local renames *)
  assert (∀ k, m !! k = w_fs w0 !! k) as Em by done.
  apply wp_bind.
  assert (wp (if decide (rl = ∅) then ret tt else rename_files C (with_new C (c_iter C (elements rl))) (c_L C))
    (λ w1, ∃ pre, (∀ p, p ∈ pre → p ∈ rl) ∧ shifted C L m pre (w_fs w1))
    (λ r w1, r = Ok tt ∧ ∃ pre, (∀ p, p ∈ pre ↔ p ∈ rl) ∧ shifted C L m pre (w_fs w1)) w0) as G1.
  { destruct (decide (rl = ∅)) as [->|Hne].
    - apply wp_ret. split; [done|]. exists []. split; [intros p; split; [intros H; by apply elem_of_nil in H|set_solver]|]. apply shifted_nil, Hm.
    - assert (∀ p, p ∈ c_iter C (elements rl) ↔ p ∈ rl) as He by (intros p; by rewrite Hit, elem_of_elements).
      apply rename_files_wp.
      + apply Hm.
      + rewrite Hit. apply NoDup_elements.
      + intros p Hp%He. destruct (Hcl p) as (Hpn & _ & nl & nr & Hnl & _ & Hd & _); [by apply Hin; left|]. eauto.
      + intros p Hp%He. by apply Hfree, Hin; left.
      + intros pre m1 Hpre Hs. exists pre. split; [|done]. intros p Hp. apply He. destruct Hpre as [s ->]. set_solver.
      + intros m1 ld rd Hs. split; [done|]. by exists (c_iter C (elements rl)). }
  assert (∀ w1 pre, (∀ p, p ∈ pre → p ∈ rl) → shifted C L m pre (w_fs w1) → some w1 ∧ rest w1) as S1.
  { intros w1 pre Hpre Hs. split.
    - intros p nl nr Hp Hnl Hnr. unfold both_somewhere. fold L R. split.
      + destruct (decide (p ∈ pre)) as [Hi|Hi].
        * right. by rewrite (sh_new _ _ _ _ _ Hs p Hi).
        * left. rewrite (sh_rest _ _ _ _ _ Hs); [done|]. intros q Hq. split; intros E%app_inv_head; [by subst q|].
          destruct (Hfree q) as [Hf _]; [by apply Hin; left; apply Hpre|]. fold L m in Hf. rewrite <-E in Hf. congruence.
      + left. rewrite (sh_rest _ _ _ _ _ Hs); [done|]. intros q Hq. split; intros E; symmetry in E; by eapply apart_ne in E.
    - intros k Hk. apply (sh_rest _ _ _ _ _ Hs). intros q Hq. specialize (Hk q (Hin q (or_introl (Hpre q Hq)))).
      split; intros ->; apply Hk; [left|right; left]. }
  eapply wp_mono; [eapply wp_trace_mono; [exact G1|]; intros w1 (pre & H1 & H2); by eapply S1|].
  intros r w1 (-> & pl & Hpl & Hsl). cbv iota. clear G1.
  assert (∀ k, (∀ p, p ∈ rl → k ≠ L ++ p ∧ k ≠ L ++ conflict_name C p) → w_fs w1 !! k = m !! k) as Hk1.
  { intros k Hk. apply (sh_rest _ _ _ _ _ Hsl). intros p Hp. by apply Hk, Hpl. }
  assert (∀ p, w_fs w1 !! (R ++ p) = m !! (R ++ p)) as HR1.
  { intros p. apply Hk1. intros q _. split; intros E; symmetry in E; by eapply apart_ne in E. }
  apply wp_bind.
  assert (wp (if decide (rr = ∅) then ret tt else remote_guard C (rename_files C (with_new C (c_iter C (elements rr))) (c_R C)))
    (λ w2, ∃ pre, (∀ p, p ∈ pre → p ∈ rr) ∧ shifted C R (w_fs w1) pre (w_fs w2))
    (λ r w2, r = Ok tt ∧ ∃ pre, (∀ p, p ∈ pre ↔ p ∈ rr) ∧ shifted C R (w_fs w1) pre (w_fs w2)) w1) as G2.
  { destruct (decide (rr = ∅)) as [->|Hne].
    - apply wp_ret. split; [done|]. exists []. split; [intros p; split; [intros H; by apply elem_of_nil in H|set_solver]|]. apply shifted_nil, Hsl.
    - assert (∀ p, p ∈ c_iter C (elements rr) ↔ p ∈ rr) as He by (intros p; by rewrite Hit, elem_of_elements).
      unfold remote_guard. apply wp_catch. apply rename_files_wp.
      + apply Hsl.
      + rewrite Hit. apply NoDup_elements.
      + intros p Hp%He. destruct (Hcl p) as (Hpn & _ & nl & nr & _ & Hnr & _ & Hd); [by apply Hin; right|]. split; [done|].
        exists nr. by rewrite HR1.
      + intros p Hp%He. rewrite HR1. by apply Hfree, Hin; right.
      + intros pre m1 Hpre Hs. exists pre. split; [|done]. intros p Hp. apply He. destruct Hpre as [s ->]. set_solver.
      + intros m1 ld rd Hs. split; [done|]. by exists (c_iter C (elements rr)). }
  assert (∀ w2 pre, (∀ p, p ∈ pre → p ∈ rr) → shifted C R (w_fs w1) pre (w_fs w2) →
    (∀ p, w_fs w2 !! (L ++ p) = w_fs w1 !! (L ++ p)) ∧ some w2 ∧ rest w2) as S2.
  { intros w2 pre Hpre Hs.
    assert (∀ p, w_fs w2 !! (L ++ p) = w_fs w1 !! (L ++ p)) as HL2.
    { intros p. apply (sh_rest _ _ _ _ _ Hs). intros q _. split; intros E; by eapply apart_ne in E. }
    split; [done|]. destruct (S1 w1 pl (λ p, proj1 (Hpl p)) Hsl) as [A1 A2]. split.
    - intros p nl nr Hp Hnl Hnr. destruct (A1 p nl nr Hp Hnl Hnr) as [B1 _]. unfold both_somewhere in B1 |- *. fold L R in B1 |- *. split; [by rewrite !HL2|].
      destruct (decide (p ∈ pre)) as [Hi|Hi].
      + right. by rewrite (sh_new _ _ _ _ _ Hs p Hi), HR1.
      + left. rewrite (sh_rest _ _ _ _ _ Hs), HR1; [done|]. intros q Hq. split; intros E%app_inv_head; [by subst q|].
        destruct (Hfree q) as [_ Hf]; [by apply Hin; right; apply Hpre|]. fold R m in Hf. rewrite <-E in Hf. congruence.
    - intros k Hk. rewrite (sh_rest _ _ _ _ _ Hs); [by apply A2|]. intros q Hq. specialize (Hk q (Hin q (or_intror (Hpre q Hq)))).
      split; intros ->; apply Hk; [right; right; left|right; right; right; left]. }
  eapply wp_mono; [eapply wp_trace_mono; [exact G2|]; intros w2 (pre & H1 & H2); by apply (S2 w2 pre)|].
  intros r w2 (-> & pr & Hpr & Hsr). cbv iota. clear G2. apply wp_ret.
  destruct (S2 w2 pr (λ p, proj1 (Hpr p)) Hsr) as (HL2 & _ & Hrest). split; [|done].
  exists (renamed C rl lp), (renamed C rr rp). split; [done|].
  assert (∀ (r : pset) (X : pset) p, p ∈ X → (if bool_decide (p ∈ r) then conflict_name C p else p) ∈ renamed C r X) as Hren.
  { intros r X p Hp. unfold renamed. apply elem_of_map. by exists p. }
  split; [|split].
  - intros p nl nr Hp Hnl Hnr. destruct (Hset p nl nr Hp Hnl Hnr) as [E1 E2]. pose proof Hp as (Hp1 & Hp2 & _).
    destruct (Hfree p Hp) as [F1 F2]. fold L R m in F1, F2.
    assert (p ∉ rl → w_fs w1 !! (L ++ p) = Some nl) as K1.
    { intros Hi. rewrite Hk1; [done|]. intros q Hq. split; intros E%app_inv_head; [by subst q|].
      destruct (Hfree q) as [Hf _]; [by apply Hin; left|]. fold L m in Hf. rewrite <-E in Hf. congruence. }
    assert (p ∉ rr → w_fs w2 !! (R ++ p) = Some nr) as K2.
    { intros Hi. rewrite (sh_rest _ _ _ _ _ Hsr), HR1; [done|]. intros q Hq%Hpr. split; intros E%app_inv_head; [by subst q|].
      destruct (Hfree q) as [_ Hf]; [by apply Hin; right|]. fold R m in Hf. rewrite <-E in Hf. congruence. }
    split; [|split].
    + unfold both_kept. fold L R. split; [|split]; unfold older in *.
      * intros Ho. assert (p ∈ rl) as Hi by by apply E1. rewrite !HL2. rewrite (sh_old _ _ _ _ _ Hsl), (sh_new _ _ _ _ _ Hsl) by by apply Hpl.
        split_and!; [done|done|]. apply K2. rewrite E2. lia.
      * intros Ho. assert (p ∈ rr) as Hi by by apply E2. rewrite HL2. rewrite (sh_old _ _ _ _ _ Hsr), (sh_new _ _ _ _ _ Hsr), HR1 by by apply Hpr.
        split_and!; [done|done|]. apply K1. rewrite E1. lia.
      * intros Ho. rewrite HL2. split; [apply K1; rewrite E1; lia|apply K2; rewrite E2; lia].
    + specialize (Hren rl lp p Hp1). unfold new_name. case_bool_decide as Hb; rewrite E1 in Hb; unfold older in Hb.
      * by rewrite (proj2 (Z.ltb_lt _ _) Hb).
      * by rewrite (proj2 (Z.ltb_ge _ _)) by lia.
    + specialize (Hren rr rp p Hp2). unfold new_name. case_bool_decide as Hb; rewrite E2 in Hb; unfold older in Hb.
      * by rewrite (proj2 (Z.ltb_lt _ _) Hb).
      * by rewrite (proj2 (Z.ltb_ge _ _)) by lia.
  - intros p Hp Hn. specialize (Hren rl lp p Hp). rewrite bool_decide_false in Hren; [done|]. intros Hi. by apply Hn, Hin; left.
  - intros p Hp Hn. specialize (Hren rr rp p Hp). rewrite bool_decide_false in Hren; [done|]. intros Hi. by apply Hn, Hin; right.
Qed.
Print Assumptions C28_both_kept_partial.

(** ** Not true in general.  Files changed on both sides in the same instant
    (by the resolution of the file system's clock): the sync succeeds and one
    version is gone. *)
Definition wE : world := upd (pL ++ e "a") (File (lit "mine") 15) (upd (pR ++ e "a") (File (lit "theirs") 15) exM).
Theorem C28_equal_times_refuted :
  ∃ C w p c c' t, idle C w ∧ is_Some (w_ldb w !! p)
    ∧ w_fs w !! (c_L C ++ p) = Some (File c t) ∧ w_fs w !! (c_R C ++ p) = Some (File c' t)
    ∧ (∀ last, w_last w = Some last → last < t)%Z
    ∧ let '(_, w', r) := sync_main C (ret tt) w in r = Ok tt ∧ ∀ k t, w_fs w' !! k ≠ Some (File c' t).
Proof.
  exists exC, wE, (e "a"), (lit "mine"), (lit "theirs"), 15%Z.
  split; [apply idle_of; mounted_now|]. split; [decided|]. split; [vm_compute; reflexivity|].
  split; [vm_compute; reflexivity|]. split; [by intros last [= <-]|].
  pose proof (run_witness exC (ret tt) wE (λ r w', is_ok r && lost (lit "theirs") (w_fs w')) ltac:(vm_compute; reflexivity)) as H.
  destruct (sync_main exC _ _) as [[tr w'] r]. apply andb_true_iff in H as [H1 H2]. split; [by apply is_ok_spec|by apply lost_spec].
Qed.
Print Assumptions C28_equal_times_refuted.

(** A file that has the conflict name already is overwritten. *)
Definition wO : world :=
  upd (pL ++ e "a_conflict-20180102-030405") (File (lit "earlier") 12)
    (upd (pL ++ e "a") (File (lit "mine") 14) (upd (pR ++ e "a") (File (lit "theirs") 15) exM)).
Theorem C28_name_taken_refuted :
  ∃ C w p q c t, idle C w ∧ is_Some (w_ldb w !! p) ∧ q ≠ p
    ∧ w_fs w !! (c_L C ++ q) = Some (File c t)
    ∧ let '(_, w', r) := sync_main C (ret tt) w in r = Ok tt ∧ ∀ k t, w_fs w' !! k ≠ Some (File c t).
Proof.
  exists exC, wO, (e "a"), (e "a_conflict-20180102-030405"), (lit "earlier"), 12%Z.
  split; [apply idle_of; mounted_now|]. split; [decided|]. split; [done|]. split; [vm_compute; reflexivity|].
  pose proof (run_witness exC (ret tt) wO (λ r w', is_ok r && lost (lit "earlier") (w_fs w')) ltac:(vm_compute; reflexivity)) as H.
  destruct (sync_main exC _ _) as [[tr w'] r]. apply andb_true_iff in H as [H1 H2]. split; [by apply is_ok_spec|by apply lost_spec].
Qed.
Print Assumptions C28_name_taken_refuted.

(** When the local version is the older one, and the file is not among those
    that are to stay local, the sync fails: having renamed the local file it
    tries to delete it under its old name.  The next sync takes the file, which
    is no longer in the local directory, for one that the user has deleted, and
    deletes the newer version from the remote directory. *)
Definition wL : world := upd (pL ++ e "a") (File (lit "mine") 14) (upd (pR ++ e "a") (File (lit "theirs") 15) exM).
Theorem C28_local_older_refuted :
  ∃ C C' w p c c' t t', idle C w ∧ is_Some (w_ldb w !! p)
    ∧ w_fs w !! (c_L C ++ p) = Some (File c t) ∧ w_fs w !! (c_R C ++ p) = Some (File c' t')
    ∧ (∀ last, w_last w = Some last → last < t)%Z ∧ (t < t')%Z
    ∧ w_fs w !! (c_L C ++ conflict_name C p) = None ∧ w_fs w !! (c_R C ++ conflict_name C p) = None
    ∧ (0 < c_limit C)%Z ∧ c_L C' = c_L C ∧ c_R C' = c_R C
    ∧ let '(_, w1, r1) := sync_main C (ret tt) w in
      let '(_, w2, _) := sync_main C' (ret tt) (reboot w1) in
      r1 = Err FileNotFound ∧ ∀ k t, w_fs w2 !! k ≠ Some (File c' t).
Proof.
  exists (at_ exC 1 20 21), (at_ exC 1 40 41), wL, (e "a"), (lit "mine"), (lit "theirs"), 14%Z, 15%Z.
  split; [apply idle_of; mounted_now|]. split; [decided|]. split; [vm_compute; reflexivity|].
  split; [vm_compute; reflexivity|]. split; [by intros last [= <-]|]. split; [lia|].
  split; [vm_compute; reflexivity|]. split; [vm_compute; reflexivity|]. split; [done|]. split; [done|]. split; [done|].
  assert (let x := sync_main (at_ exC 1 20 21) (ret tt) wL in let y := sync_main (at_ exC 1 40 41) (ret tt) (reboot x.1.2) in
    is_err FileNotFound x.2 && lost (lit "theirs") (w_fs y.1.2) = true) as Hx by (vm_compute; reflexivity).
  cbv zeta in Hx. destruct (sync_main (at_ exC 1 20 21) (ret tt) wL) as [[tr w1] r1]. cbn [fst snd] in Hx.
  destruct (sync_main (at_ exC 1 40 41) (ret tt) (reboot w1)) as [[tr2 w2] r2]. cbn [fst snd] in Hx.
  apply andb_true_iff in Hx as [H1 H2]. split; [by apply is_err_spec|by apply lost_spec].
Qed.
Print Assumptions C28_local_older_refuted.

(** The hypotheses hold of a state with a conflict on each side. *)
Definition wB : world :=
  upd (pL ++ e "a") (File (lit "mine") 14) (upd (pR ++ e "a") (File (lit "theirs") 15)
    (upd (pL ++ e "n.x") (File (lit "mine2") 17) (upd (pR ++ e "n.x") (File (lit "theirs2") 16) exM))).
Definition setB : pset := list_to_set [e "a"; e "n.x"].
Example C28_example :
  let C := exC in let w := wB in let lp := setB in let rp := setB in
  let L := c_L C in let R := c_R C in let m := w_fs w in
  let clash := λ p, p ∈ lp ∧ p ∈ rp ∧ ¬ db_dir (v_ldb w) p in
  (mounted C (w_fs w) ∧ current C w ∧ apart (c_L C) (c_R C) ∧ (∀ l, c_iter C l ≡ₚ l)
  ∧ (∀ p, clash p → p ≠ [] ∧ ¬ zielen_dir `prefix_of` p ∧ ∃ nl nr,
     m !! (L ++ p) = Some nl ∧ m !! (R ++ p) = Some nr ∧ is_Dir nl = false ∧ is_Dir nr = false)
  ∧ (∀ p, clash p → m !! (L ++ conflict_name C p) = None ∧ m !! (R ++ conflict_name C p) = None))
  ∧ let '(_, w', _) := handle_conflicts C lp rp w in
    node_is (w_fs w') (pL ++ e "a") None && node_is (w_fs w') (pL ++ e "a_conflict-20180102-030405") (Some (File (lit "mine") 14))
    && node_is (w_fs w') (pR ++ e "a") (Some (File (lit "theirs") 15)) && node_is (w_fs w') (pL ++ e "n.x") (Some (File (lit "mine2") 17))
    && node_is (w_fs w') (pR ++ e "n.x") None && node_is (w_fs w') (pR ++ e "n_conflict-20180102-030405.x") (Some (File (lit "theirs2") 16)) = true.
Proof.
  intros C w lp rp L R m clash. split; [|vm_compute; reflexivity].
  assert (∀ p, clash p → p = e "a" ∨ p = e "n.x") as Hin.
  { intros p ([H|[H|H%elem_of_nil]%elem_of_cons]%elem_of_list_to_set%elem_of_cons & _); [by left|by right|done]. }
  split; [mounted_now|]. split; [by apply fresh_current|]. split; [decided|]. split; [done|]. split.
  - intros p [->| ->]%Hin.
    + split; [done|]. split; [decided|]. eexists _, _. split_and!; [vm_compute; reflexivity|vm_compute; reflexivity|done..].
    + split; [done|]. split; [decided|]. eexists _, _. split_and!; [vm_compute; reflexivity|vm_compute; reflexivity|done..].
  - intros p [->| ->]%Hin; split; vm_compute; reflexivity.
Qed.
