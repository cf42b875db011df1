(** C40: what is changed in the local directory after a sync has done its work. *)
From Coq Require Import QArith Qcanon.
From Verif Require Export Prop_History.
From stdpp Require Import options.

(** The client [i] syncs, and then the users change the local directories: the
    tree is [m].  The next sync of the client brings to the remote directory what
    is new and what is edited, and takes from it what is gone.  It does not matter
    when a new file was made or another one deleted, so that may have been before
    the first sync took its time [c_end C].  For a file that is edited it does.
    Missing: changes while the files are looked up and copied
    (C40_edit_refuted), edits before the time is taken (C40_missed_refuted), and
    clashes ([tame], [newer_here]). *)
Theorem C40_later_partial S i k C m C' :
  history S → s_clients S !! i = Some k → same_place (k_conf k) C → any_order C →
  tame C (s_fs S) (k_ldb k) (s_rdb S) (k_last k) (excluded_now C (s_fs S)) →
  newer_here C (s_fs S) (k_ldb k) (s_rdb S) (k_last k) →
  let '(_, w1, r1) := sync_main C (ret tt) (start S k) in
  let S1 := stop S i C w1 in
  wf_fs m →
  (∀ k, k ∈ s_clients S1 → dir_at m (c_L (k_conf k)) ∧ ∀ q, c_R (k_conf k) `prefix_of` q → m !! q = w_fs w1 !! q) →
  same_place C C' → any_order C' →
  tame C' m (w_ldb w1) (w_rdb w1) (c_end C) (excluded_now C' m) →
  newer_here C' m (w_ldb w1) (w_rdb w1) (c_end C) →
  let '(_, w2, r2) := sync_main C' (ret tt) (reboot (set_fs m w1)) in
  r1 = Ok tt ∧ r2 = Ok tt
  ∧ (∀ p n, r_at C (w_fs w1) p = None → l_at C m p = Some n → p ∉ excluded_now C' m → safe_entry m (c_L C) p →
      like (r_at C (w_fs w2) p) (Some n))
  ∧ (∀ p c t, is_Some (r_at C (w_fs w1) p) → l_at C m p = Some (File c t) → (c_end C < t)%Z →
      r_at C (w_fs w2) p = Some (File c t))
  ∧ (∀ p, is_Some (r_at C (w_fs w1) p) → l_at C m p = None → r_at C (w_fs w2) p = None).
Proof.
  intros HS Hk Hp Ho Ht Hn. pose proof (C79_conflict_partial S i k C HS Hk Hp Ho Ht Hn) as H1.
  pose proof (hs_sync S i k C HS Hk Hp Ho Ht Hn) as HS1. cbv zeta in HS1.
  destruct (sync_main C (ret tt) (start S k)) as [[tr1 w1] r1]. cbn [fst snd] in HS1.
  destruct H1 as (-> & _ & _ & El & _ & Elast & _). intros S1 Hwf Hm Hp' Ho' Ht' Hn'.
  pose proof (hs_edit S1 m HS1 Hwf Hm) as HS2. set (S2 := System m (s_rdb S1) (s_clients S1)) in HS2.
  set (k1 := Client C (w_ldb w1) (c_end C)).
  assert (s_clients S2 !! i = Some k1) as Hk1.
  { unfold S2, S1, k1. cbn [s_clients stop]. rewrite Elast. by eapply list_lookup_insert, lookup_lt_Some. }
  pose proof (C79_conflict_partial S2 i k1 C' HS2 Hk1 Hp' Ho' Ht' Hn') as H2.
  assert (start S2 k1 = reboot (set_fs m w1)) as E2 by (unfold start, reboot; cbn; by rewrite Elast). rewrite E2 in H2.
  destruct (sync_main C' (ret tt) (reboot (set_fs m w1))) as [[tr2 w2] r2]. destruct H2 as (-> & Hcl & Hrest & _).
  change (s_fs S2) with m in *. change (k_ldb k1) with (w_ldb w1) in *. change (k_last k1) with (c_end C) in *.
  assert (c_L C' = c_L C) as EL by apply Hp'. assert (c_R C' = c_R C) as ER by apply Hp'.
  assert (∀ m p, l_at C' m p = l_at C m p) as Ell by (intros m' p; unfold l_at; by rewrite EL).
  assert (∀ m p, r_at C' m p = r_at C m p) as Err by (intros m' p; unfold r_at; by rewrite ER).
  assert (∀ p, r_at C m p = r_at C (w_fs w1) p) as Em.
  { intros p. unfold r_at. case_decide; [done|].
    apply (Hm k1); [apply (elem_of_list_lookup_2 _ i), Hk1|]. by exists p. }
  assert (∀ p, w_ldb w1 !! p = None ↔ r_at C (w_fs w1) p = None) as Hkn.
  { intros p. specialize (El p). destruct (w_ldb w1 !! p), (r_at C (w_fs w1) p); done. }
  pose (clash' := clash C' m (w_ldb w1) (s_rdb S2) (c_end C)). fold clash' in Hcl, Hrest.
  assert (∀ p, is_Some (l_at C m p) ∨ is_Some (r_at C m p) → ∀ q, clash' q → p ≠ conflict_name C' q) as Hne.
  { intros p Hs q Hq ->. destruct (nh_free _ _ _ _ _ Hn' q Hq) as (N1 & N2 & _). rewrite Ell in N1. rewrite Err in N2.
    rewrite N1, N2 in Hs. destruct Hs as [[? ?]|[? ?]]; done. }
  split; [done|]. split; [done|]. split_and!.
  - intros p n Hr Hl HX Hsf. assert (¬ clash' p) as Hc.
    { intros (c & t & c' & t' & _ & Hx & _). rewrite Err, Em, Hr in Hx. done. }
    destruct (Hrest p Hc) as [Hx _]; [apply Hne; left; by eexists|]. rewrite Err in Hx.
    unfold merged in Hx. rewrite (proj2 (Hkn p) Hr), Ell, Err, Em, Hr, Hl in Hx. rewrite decide_False in Hx; [done|].
    intros (_ & _ & [?|Hs]); [done|]. apply Hs. by rewrite EL.
  - intros p c t [n Hr] Hl Hlt. destruct (decide (clash' p)) as [Hc|Hc].
    + destruct (Hcl p Hc) as (Hx & _). by rewrite Err, Ell, Hl in Hx.
    + destruct (Hrest p Hc) as [Hx _]; [apply Hne; left; by eexists|]. rewrite Err in Hx.
      unfold merged in Hx. destruct (w_ldb w1 !! p) as [d|] eqn:Ed; [|apply Hkn in Ed; congruence].
      rewrite Ell, Err, Em, Hr, Hl in Hx. rewrite (proj2 (Z.ltb_lt _ _) Hlt) in Hx. unfold like in Hx.
      by destruct (r_at C (w_fs w2) p) as [[| |]|].
  - intros p [n Hr] Hl. assert (¬ clash' p) as Hc.
    { intros (c & t & c' & t' & Hx & _). rewrite Ell, Hl in Hx. done. }
    destruct (Hrest p Hc) as [Hx _]; [apply Hne; right; rewrite Em; by eexists|]. rewrite Err in Hx.
    unfold merged in Hx. destruct (w_ldb w1 !! p) as [d|] eqn:Ed; [|apply Hkn in Ed; congruence].
    rewrite Ell, Err, Em, Hr, Hl in Hx. unfold like in Hx.
    by destruct (r_at C (w_fs w2) p) as [[| |]|].
Qed.
Print Assumptions C40_later_partial.
(** The sync of the first client in the history of C79, which ends at 51; then
    "z" is made with the time 50, "d/a" is edited and "y" is deleted. *)
Definition la_w : world := (sync_main (hA 50) (ret tt) (start hi5 (client_of hi5 0))).1.2.
Definition la_fs : fs :=
  <[pL ++ e "d" ++ e "a" := File (lit "a3") 60%Z]> (<[pL ++ e "z" := File (lit "zz") 50%Z]> (delete (pL ++ e "y") (w_fs la_w))).
Lemma la_clean : clean (hA 70) la_fs (w_ldb la_w) (w_rdb la_w) (c_end (hA 50)) {[ e "x" ]}.
Proof. apply clean_checked. decided. Qed.
Lemma la_clients : Forall (λ k, c_L (k_conf k) ∈ [pL; pI] ∧ c_R (k_conf k) = pR) (s_clients (stop hi5 0 (hA 50) la_w)).
Proof. decided. Qed.
Lemma la_dirs : Forall (λ p, dir_at la_fs p) [pL; pI].
Proof. decided. Qed.
Lemma la_wf : wf_fs la_fs.
Proof. decided. Qed.
Lemma la_history1 : history (stop hi5 0 (hA 50) la_w).
Proof.
  unfold la_w.
  apply (hs_sync hi5 0 (client_of hi5 0) (hA 50)); [exact hi_history5|reflexivity|by split|done| |exact (clean_newer _ _ _ _ _ _ hi_clean0)].
  assert (excluded_now (hA 50) (s_fs hi5) = {[ e "x" ]}) as -> by decided.
  apply pf_tame, clean_peaceful; [|exact hi_clean0]. apply (hi_left hi5 0); [exact hi_history5|by eexists|by split].
Qed.
Lemma la_remote k : k ∈ s_clients (stop hi5 0 (hA 50) la_w) → dir_at la_fs (c_L (k_conf k)) ∧ ∀ q, c_R (k_conf k) `prefix_of` q → la_fs !! q = w_fs la_w !! q.
Proof.
  intros Hk. apply (proj1 (Forall_forall _ _) la_clients) in Hk as [HL HR].
  split; [exact (proj1 (Forall_forall _ _) la_dirs _ HL)|]. rewrite HR. intros q [s ->]. unfold la_fs.
  rewrite lookup_insert_ne by discriminate. rewrite lookup_insert_ne by discriminate. by rewrite lookup_delete_ne by discriminate.
Qed.
Lemma left_later S i k C C' w m :
  history (stop S i C w) → s_clients S !! i = Some k → wf_fs m →
  (∀ k, k ∈ s_clients (stop S i C w) → dir_at m (c_L (k_conf k)) ∧ ∀ q, c_R (k_conf k) `prefix_of` q → m !! q = w_fs w !! q) →
  same_place C C' → left_by C' m m (w_rdb w).
Proof.
  intros HS Hk Hwf Hm Hp. pose proof (history_orderly _ (hs_edit _ m HS Hwf Hm)) as Hor.
  apply (same_left C); [done|]. apply (or_left _ Hor (Client C (w_ldb w) (default 0%Z (w_last w)))).
  apply (elem_of_list_lookup_2 _ i). cbn [s_clients stop]. by eapply list_lookup_insert, lookup_lt_Some.
Qed.
Lemma la_left : left_by (hA 70) la_fs la_fs (w_rdb la_w).
Proof. refine (left_later hi5 0 (client_of hi5 0) (hA 50) (hA 70) la_w la_fs la_history1 _ la_wf la_remote _); [reflexivity|by split]. Qed.
Example C40_later_ex :
  let X := excluded_now (hA 70) la_fs in
  history hi5
  ∧ tame (hA 50) (s_fs hi5) (k_ldb (client_of hi5 0)) (s_rdb hi5) (k_last (client_of hi5 0)) (excluded_now (hA 50) (s_fs hi5))
  ∧ newer_here (hA 50) (s_fs hi5) (k_ldb (client_of hi5 0)) (s_rdb hi5) (k_last (client_of hi5 0))
  ∧ wf_fs la_fs
  ∧ (∀ k, k ∈ s_clients (stop hi5 0 (hA 50) la_w) → dir_at la_fs (c_L (k_conf k)) ∧ ∀ q, c_R (k_conf k) `prefix_of` q → la_fs !! q = w_fs la_w !! q)
  ∧ tame (hA 70) la_fs (w_ldb la_w) (w_rdb la_w) (c_end (hA 50)) X ∧ newer_here (hA 70) la_fs (w_ldb la_w) (w_rdb la_w) (c_end (hA 50))
  ∧ (r_at (hA 50) (w_fs la_w) (e "z") = None ∧ l_at (hA 50) la_fs (e "z") = Some (File (lit "zz") 50%Z) ∧ (50 <= c_end (hA 50))%Z
     ∧ e "z" ∉ X ∧ safe_entry la_fs (c_L (hA 50)) (e "z"))
  ∧ (is_Some (r_at (hA 50) (w_fs la_w) (e "d" ++ e "a")) ∧ l_at (hA 50) la_fs (e "d" ++ e "a") = Some (File (lit "a3") 60%Z) ∧ (c_end (hA 50) < 60)%Z)
  ∧ is_Some (r_at (hA 50) (w_fs la_w) (e "y")) ∧ l_at (hA 50) la_fs (e "y") = None.
Proof.
  intros X. assert (X = {[ e "x" ]}) as HX by (unfold X; decided). rewrite HX. clear HX X. split; [exact hi_history5|].
  split.
  { assert (excluded_now (hA 50) (s_fs hi5) = {[ e "x" ]}) as -> by decided.
    apply pf_tame, clean_peaceful; [|exact hi_clean0]. apply (hi_left hi5 0); [exact hi_history5|by eexists|by split]. }
  split; [exact (clean_newer _ _ _ _ _ _ hi_clean0)|]. split; [exact la_wf|]. split; [exact la_remote|].
  split; [exact (pf_tame _ _ _ _ _ _ (clean_peaceful _ _ _ _ _ _ la_left la_clean))|]. split; [exact (clean_newer _ _ _ _ _ _ la_clean)|].
  split; [split; [decided|]; split; [decided|]; split; [done|]; split; decided|]. split; [split; [decided|]; split; [decided|done]|]. split; decided.
Qed.
