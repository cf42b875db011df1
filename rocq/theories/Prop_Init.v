(** C45, C46 and C72: what [init] does to the files of the local directory. *)
From Coq Require Import QArith Qcanon.
From Verif Require Import MergeDB SyncEx.
From stdpp Require Import options.

(** ** Specification *)
(** The entry at [q] is to be moved to the remote directory: it is neither
    excluded nor a link that leads out of the local directory. *)
Definition goes (C : conf) (m0 : fs) (q : path) : Prop :=
  q ≠ [] ∧ is_Some (m0 !! (c_L C ++ q)) ∧ q ∉ c_glob C (c_patterns C) m0 (c_L C) ∧ safe_entry m0 (c_L C) q.
(** The two directories before [init]: the remote one is empty.  The last
    condition leaves out links [d/d] in a directory [d]. *)
Record new_dirs (C : conf) (m0 : fs) : Prop := {
  nd_wf : wf_fs m0;
  nd_apart : apart (c_L C) (c_R C);
  nd_L : dir_at m0 (c_L C);
  nd_R : dir_at m0 (c_R C);
  nd_Lne : c_L C ≠ [];
  nd_Rne : c_R C ≠ [];
  nd_empty : ∀ q, q ≠ [] → m0 !! (c_R C ++ q) = None;
  nd_util : ∀ q, zielen_dir `prefix_of` q → m0 !! (c_L C ++ q) = None;
  nd_id : valid_name (c_id C);
  nd_echo : ∀ q x l k, q ≠ [] → last q = Some x → m0 !! (c_L C ++ q ++ [x]) = Some (Link l k) → ¬ goes C m0 (q ++ [x])
}.
(** The patterns match by name: when some entries are missing or are links
    instead of files, the rest is matched as before. *)
Definition names_only (C : conf) (m0 : fs) : Prop :=
  ∀ m, wf_fs m →
    (∀ q n, q ≠ [] → m !! (c_L C ++ q) = Some n → ∃ n0, m0 !! (c_L C ++ q) = Some n0 ∧ is_Dir n0 = is_Dir n) →
    ∀ q, q ≠ [] → is_Some (m0 !! (c_L C ++ q)) →
      (q ∈ c_glob C (c_patterns C) m (c_L C) ↔ q ∈ c_glob C (c_patterns C) m0 (c_L C) ∧ is_Some (m !! (c_L C ++ q))).
(** No link is to be moved. *)
Definition plain_files (C : conf) (m0 : fs) : Prop := ∀ q l t, goes C m0 q → m0 !! (c_L C ++ q) ≠ Some (Link l t).

(** The same profile, perhaps at another time. *)
Record same_setup (C C' : conf) : Prop := {
  ss_L : c_L C' = c_L C; ss_R : c_R C' = c_R C; ss_id : c_id C' = c_id C;
  ss_pat : c_patterns C' = c_patterns C; ss_glob : c_glob C' = c_glob C;
  ss_iter : ∀ l, c_iter C' l ≡ₚ l
}.
Definition first (m0 : fs) (t : option Z) : world := World m0 ∅ ∅ t ∅ ∅ ∅ ∅ None.
(** The states that any number of interrupted attempts can leave. *)
Inductive attempts (C0 : conf) (m0 : fs) (t : option Z) : world → Prop :=
  | at_first : attempts C0 m0 t (first m0 t)
  | at_cut C fits w w1 : attempts C0 m0 t w → same_setup C0 C → w1 ∈ (init_files C false fits w).1.1 →
      attempts C0 m0 t (reboot w1).
(** Nothing is lost: every file and link has its old content and times in one
    of the directories at the same path, and everything else is as before. *)
Definition nothing_lost (C : conf) (m0 m : fs) : Prop :=
  (∀ q n, q ≠ [] → m0 !! (c_L C ++ q) = Some n → is_Dir n = false →
     m !! (c_L C ++ q) = Some n ∨ (goes C m0 q ∧ m !! (c_R C ++ q) = Some n))
  ∧ (∀ k t, m0 !! k = Some (Dir t) → m !! k = Some (Dir t))
  ∧ (∀ k, ¬ below k (c_L C) → ¬ below k (c_R C) → m !! k = m0 !! k).
(** The finished state. *)
Record finished (C : conf) (m0 m : fs) : Prop := {
  fi_files : ∀ q n, goes C m0 q → m0 !! (c_L C ++ q) = Some n → is_Dir n = false →
    m !! (c_R C ++ q) = Some n ∧ ∃ k, m !! (c_L C ++ q) = Some (Link (abs_path (c_R C ++ q)) k);
  fi_dirs : ∀ q, goes C m0 q → dir_at m0 (c_L C ++ q) → dir_at m (c_R C ++ q);
  fi_rest : ∀ q, q ≠ [] → (¬ goes C m0 q ∨ dir_at m0 (c_L C ++ q)) → m !! (c_L C ++ q) = m0 !! (c_L C ++ q);
  fi_only : ∀ q n, q ≠ [] → ¬ zielen_dir `prefix_of` q → m !! (c_R C ++ q) = Some n →
    ∃ r, goes C m0 r ∧ q `prefix_of` r ∧ (q ≠ r → is_Dir n = true);
  fi_out : ∀ k, ¬ below k (c_L C) → ¬ below k (c_R C) → m !! k = m0 !! k
}.

(** ** Proofs *)
Section bridge.
  Context (C : conf) (m0 : fs) (N : new_dirs C m0) (HG : names_only C m0).
  Local Notation L := (c_L C).
  Local Notation R := (c_R C).
  Local Notation X := (c_glob C (c_patterns C) m0 (c_L C)).
  Lemma goes_moved q : goes C m0 q ↔ moved L m0 X q.
  Proof using N.
    unfold goes, moved, kept. split.
    - intros (Hq & [n Hn] & Hx & Hs). split; [done|]. split; [by eexists|]. intros [?|Hu]; [done|].
      apply (unsafe_link_spec m0 L q n) in Hs; [congruence|apply N|apply N|done|done].
    - intros (Hq & [n Hn] & Hk). split; [done|]. split; [by eexists|]. split; [intros ?; apply Hk; by left|].
      apply (unsafe_link_spec m0 L q n); [apply N|apply N|done|done|]. destruct (unsafe_link m0 (L ++ q) L) eqn:E; [|done]. exfalso. apply Hk. by right.
  Qed.
  Lemma start_ok : clean_start L R (c_id C) m0 X.
  Proof using N.
    split; try apply N. intros q x l k Hq Hx. destruct (m0 !! (L ++ q ++ [x])) as [n|] eqn:E; [|by left].
    destruct (decide (n = Link l k)) as [->|Hn]; [|left; congruence]. right.
    destruct (decide (q ++ [x] ∈ X)) as [?|Hex]; [by left|]. right. destruct (unsafe_link m0 (L ++ q ++ [x]) L) eqn:Eu; [done|]. exfalso.
    apply (nd_echo _ _ N q x l k Hq Hx E). split; [by destruct q|]. split; [by eexists|]. split; [done|].
    apply (unsafe_link_spec m0 L _ (Link l k)); [apply N|apply N|by destruct q|done|done].
  Qed.
  Lemma names_ok : known_names L R (c_id C) m0 X (λ m, c_glob C (c_patterns C) m L).
  Proof using HG N.
    intros m P q Hq Hn. apply HG; [apply P| |done|done]. intros r n Hr E. destruct (pw_local _ _ _ _ _ _ P r Hr) as [E'|(Hm & Hd & _ & [E'|[k E']])].
    - exists n. by rewrite <-E'.
    - congruence.
    - rewrite E in E'. injection E' as ->. destruct (m0 !! (L ++ r)) as [n0|] eqn:E0; [|done]. exists n0. by split.
  Qed.
  Lemma plain_linkless : plain_files C m0 → linkless C m0 X.
  Proof using N. intros H q l t Hm. apply H. by apply goes_moved. Qed.
  Lemma partway_safe m : partway L R (c_id C) m0 X m → nothing_lost C m0 m.
  Proof using N.
    intros P. pose proof start_ok as H0. split; [|split].
    - intros q n Hq E Hn. destruct (pw_local _ _ _ _ _ _ P q Hq) as [E'|(Hm & _ & Er & _)]; [left; congruence|].
      right. split; [by apply goes_moved|congruence].
    - intros k t E. destruct (decide (below k L)) as [Hb|Hb].
      + apply below_root in Hb as (q & Hq & ->). destruct (pw_local _ _ _ _ _ _ P q Hq) as [E'|(_ & Hn & _)]; [congruence|]. by rewrite E in Hn.
      + destruct (decide (below k R)) as [Hb'|Hb'].
        * apply below_root in Hb' as (q & Hq & ->). by rewrite (nd_empty _ _ N) in E.
        * by rewrite (pw_out _ _ _ _ _ _ P).
    - apply P.
  Qed.
  Lemma settled_finished m : settled L R (c_id C) m0 X m → finished C m0 m.
  Proof using N.
    intros (P & U & K). pose proof start_ok as H0. split.
    - intros q n Hg E Hn. apply goes_moved in Hg. assert (nondir (m0 !! (L ++ q))) as Hnd by by rewrite E.
      split; [|by apply K]. specialize (U q Hg). rewrite decide_True in U by done. congruence.
    - intros q Hg Hd. apply goes_moved in Hg. specialize (U q Hg). rewrite decide_False in U; [done|].
      apply dir_at_lookup in Hd as [t ->]; [done|apply app_ne, Hg].
    - intros q Hq Hor. destruct (pw_local _ _ _ _ _ _ P q Hq) as [?|(Hm & Hnd & _)]; [done|]. exfalso.
      destruct Hor as [Hg|Hd]; [by apply Hg, goes_moved|]. apply dir_at_lookup in Hd as [t Ht]; [|by apply app_ne]. by rewrite Ht in Hnd.
    - intros q n Hq Hz E. pose proof (pw_remote _ _ _ _ _ _ P q n Hq Hz E) as Ha. destruct n as [| |]; simpl in Ha.
      + exists q. rewrite goes_moved. destruct Ha as [? _]. done.
      + exists q. rewrite goes_moved. destruct Ha as [? _]. done.
      + destruct Ha as ((r & Hr & Hp) & _). exists r. rewrite goes_moved. done.
    - apply P.
  Qed.
End bridge.
Lemma new_dirs_setup C C' m0 : same_setup C C' → new_dirs C m0 → new_dirs C' m0.
Proof.
  intros [E1 E2 E3 E4 E5 _] N. destruct C, C'. simpl in *. subst. destruct N. split; try done.
Qed.
Lemma names_only_setup C C' m0 : same_setup C C' → names_only C m0 → names_only C' m0.
Proof. intros [E1 E2 E3 E4 E5 _] N. destruct C, C'. simpl in *. subst. done. Qed.
Lemma goes_setup C C' m0 q : same_setup C C' → goes C' m0 q ↔ goes C m0 q.
Proof. intros [E1 E2 E3 E4 E5 _]. destruct C, C'. simpl in *. by subst. Qed.
Lemma plain_setup C C' m0 : same_setup C C' → plain_files C m0 → plain_files C' m0.
Proof. intros S N q l t. rewrite goes_setup by done. rewrite (ss_L _ _ S). apply N. Qed.

Definition waiting (C : conf) (m0 : fs) (t : option Z) (w : world) : Prop :=
  partway (c_L C) (c_R C) (c_id C) m0 (c_glob C (c_patterns C) m0 (c_L C)) (w_fs w) ∧ w = first (w_fs w) t.
Lemma bare_start C m0 : new_dirs C m0 → bare C m0.
Proof. intros N q Hq _. by apply N. Qed.
Lemma init_files_states C m0 t w fits : new_dirs C m0 → names_only C m0 → (∀ l, c_iter C l ≡ₚ l) →
  (bare C (w_fs w) ∧ c_tty C = false) ∨ plain_files C m0 → waiting C m0 t w →
  wp (init_files C false fits) (on_way C m0 (c_glob C (c_patterns C) m0 (c_L C)) w)
    (λ r w', if fits : bool then r = Ok tt ∧ ran C m0 (c_glob C (c_patterns C) m0 (c_L C)) w w' ∧ w_fs w' !! exclude_file C = Some (File (c_patterns C) (c_now C))
               ∧ util_ok C (w_fs w') ∧ dir_at (w_fs w') (trash_dir C)
             else r = Err AvailableSpaceErr ∧ on_way C m0 (c_glob C (c_patterns C) m0 (c_L C)) w w') w.
Proof.
  intros N HG Hit Hp [P Ew]. pose proof (start_ok C m0 N) as H0. pose proof (names_ok C m0 N HG) as Hk.
  destruct fits.
  - apply init_files_wp; try done; try by rewrite Ew.
    destruct Hp as [?|Hp]; [by left|right; by apply plain_linkless].
  - apply init_files_full_wp; try done; by rewrite Ew.
Qed.
Lemma attempts_waiting C0 m0 t w : new_dirs C0 m0 → names_only C0 m0 → plain_files C0 m0 → attempts C0 m0 t w → waiting C0 m0 t w.
Proof.
  intros N HG Hp. induction 1 as [|C fits w w1 A IH S Hin].
  - split; [|done]. by apply partway_start, start_ok.
  - assert (waiting C m0 t w) as W.
    { destruct S as [E1 E2 E3 E4 E5 _]. unfold waiting in *. by rewrite E1, E2, E3, E4, E5. }
    pose proof (init_files_states C m0 t w fits (new_dirs_setup _ _ _ S N) (names_only_setup _ _ _ S HG) (ss_iter _ _ S)
      (or_intror (plain_setup _ _ _ S Hp)) W) as [Htr _].
    rewrite Forall_forall in Htr. apply Htr in Hin as (P & E1 & E2 & E3).
    assert (partway (c_L C0) (c_R C0) (c_id C0) m0 (c_glob C0 (c_patterns C0) m0 (c_L C0)) (w_fs w1)) as P'.
    { destruct S as [F1 F2 F3 F4 F5 _]. by rewrite F1, F2, F3, F4, F5 in P. }
    destruct W as [_ W]. split; [done|]. unfold reboot, first. rewrite E1, E2, E3, W. done.
Qed.
Lemma init_main_states C m0 t w fits : new_dirs C m0 → names_only C m0 → (∀ l, c_iter C l ≡ₚ l) →
  (bare C (w_fs w) ∧ c_tty C = false) ∨ plain_files C m0 → waiting C m0 t w →
  wp (init_main C false fits) (λ w1, nothing_lost C m0 (w_fs w1))
    (λ r w', nothing_lost C m0 (w_fs w') ∧
      if fits : bool then
        r = Ok tt ∧ finished C m0 (w_fs w') ∧ w_fs w' !! exclude_file C = Some (File (c_patterns C) (c_now C))
        ∧ w_last w' = Some (c_end C)
        ∧ (∃ files dirs, (∀ q, q ∈ files ++ dirs ↔ listed C (w_fs w') (unsafe_now (c_L C) (w_fs w)) q)
            ∧ (∀ q, q ∈ dirs ↔ q ≠ [] ∧ ¬ zielen_dir `prefix_of` q ∧ dir_at (w_fs w') (c_R C ++ q))
            ∧ w_ldb w' = sl_add ∅ files dirs 0%Qc false ∧ w_rdb w' = sr_add ∅ files dirs (c_now C))
        ∧ util_ok C (w_fs w') ∧ dir_at (w_fs w') (trash_dir C) ∧ (∀ x, w_fs w' !! (trash_dir C ++ [x]) = None) ∧ wf_fs (w_fs w')
      else r = Err AvailableSpaceErr ∧ w_last w' = t ∧ w_ldb w' = ∅ ∧ w_rdb w' = ∅) w.
Proof.
  intros N HG Hit Hp W. unfold init_main. apply wp_bind.
  eapply wp_mono; [eapply wp_trace_mono; [exact (init_files_states C m0 t w fits N HG Hit Hp W)|]|].
  - intros w1 (P & _). by apply partway_safe.
  - intros r w1 Hr. destruct fits.
    + destruct Hr as (-> & (St & _ & D1 & _) & Hx & Hu & Htr). unfold sync_finish.
      pose proof (partway_safe C m0 N _ (proj1 St)) as Hn.
      apply wp_bind, wp_put; [done|]. apply wp_bind, wp_put; [done|]. apply wp_bind, wp_put; [done|]. apply wp_put; [done|].
      cbn [w_fs w_ldb w_rdb w_last commit_l commit_r set_last]. split_and!; try done; [by apply settled_finished| |apply St].
      intros x. pose proof (pw_trash _ _ _ _ _ _ (proj1 St) x) as E. unfold trash_dir, util_dir. by rewrite <-!app_assoc in *.
    + destruct Hr as (-> & P & E1 & E2 & E3). destruct W as [_ W]. split_and!; [by apply partway_safe|done|rewrite E3, W; done|rewrite E1, W; done|rewrite E2, W; done].
Qed.

Lemma init_fresh C m0 t :
  new_dirs C m0 → names_only C m0 → (∀ l, c_iter C l ≡ₚ l) → c_tty C = false ∨ plain_files C m0 →
  let '(_, w', r) := init_main C false true (first m0 t) in
  r = Ok tt ∧ finished C m0 (w_fs w') ∧ w_last w' = Some (c_end C)
  ∧ (∀ q, w_rdb w' !! q = if decide (q = [] ∨ zielen_dir `prefix_of` q) then None
                          else (λ n, RData (is_Dir n) (c_now C)) <$> w_fs w' !! (c_R C ++ q))
  ∧ (∀ q, ld_dir <$> w_ldb w' !! q = rd_dir <$> w_rdb w' !! q)
  ∧ (∀ q d, w_ldb w' !! q = Some d → ld_dir d = false → d = LData false 0%Qc false)
  ∧ util_ok C (w_fs w') ∧ dir_at (w_fs w') (trash_dir C) ∧ (∀ x, w_fs w' !! (trash_dir C ++ [x]) = None) ∧ wf_fs (w_fs w').
Proof.
  intros N HG Hit Hp. pose proof (start_ok C m0 N) as H0.
  assert (waiting C m0 t (first m0 t)) as W by (split; [by apply partway_start, start_ok|done]).
  assert ((bare C (w_fs (first m0 t)) ∧ c_tty C = false) ∨ plain_files C m0) as Hp'.
  { destruct Hp as [?|?]; [left|by right]. split; [by apply bare_start|done]. }
  pose proof (init_main_states C m0 t (first m0 t) true N HG Hit Hp' W) as [_ H].
  destruct (init_main C false true (first m0 t)) as [[tr w'] r]. cbn [fst snd] in *.
  destruct H as (_ & -> & Fi & _ & El & (files & dirs & Hall & Hd & EL & ER) & Hu & Ht & Htr & Hwf).
  set (m := w_fs w') in *.
  assert (∀ q, q ∈ files ++ dirs ↔ ¬ (q = [] ∨ zielen_dir `prefix_of` q) ∧ is_Some (m !! (c_R C ++ q))) as Hin.
  { intros q. rewrite Hall. unfold listed. split.
    - intros (H1 & H2 & n & H3 & _). split; [tauto|by eexists].
    - intros (H1 & n & H3). split_and!; [tauto|tauto|]. exists n. split; [done|]. intros Hn Hx.
      apply elem_of_unsafe in Hx as (_ & (l & k & E) & Hx). cbn [w_fs first] in *.
      destruct (fi_only _ _ _ Fi q n) as (r & Hg & Hp2 & Hn2); [tauto|tauto|done|].
      assert (q = r) as <-. { destruct (decide (q = r)); [done|]. by rewrite Hn2 in Hn. }
      destruct Hg as (_ & _ & _ & Hs). apply (unsafe_link_spec m0 (c_L C) q (Link l k)) in Hs; [congruence|apply N|apply N|tauto|done]. }
  assert (∀ q n, m !! (c_R C ++ q) = Some n → q ∈ files ++ dirs → bool_decide (q ∈ dirs) || bool_decide (q ∈ parents (files ++ dirs)) = is_Dir n) as Hk.
  { intros q n E Hq. assert (q ≠ []) as Hne by (apply Hin in Hq as [? _]; tauto). destruct (is_Dir n) eqn:En.
    - rewrite bool_decide_true; [done|]. apply Hd. apply Hin in Hq as [? _]. split_and!; [done|tauto|]. apply dir_at_lookup; [by apply app_ne|]. destruct n; [done|done|eauto].
    - apply orb_false_iff. rewrite !bool_decide_eq_false. split.
      + intros (_ & _ & Hx)%Hd. apply dir_at_lookup in Hx as [k Hx]; [|by apply app_ne]. rewrite E in Hx. by injection Hx as ->.
      + intros (_ & c & Hc & ->)%elem_of_parents. apply Hin in Hc as [Hc [n' E']]. assert (c ≠ []) by tauto.
        apply Hwf in E' as (_ & _ & Hx). rewrite parent_app in Hx by done. apply dir_at_lookup in Hx as [k Hx]; [|by apply app_ne]. rewrite E in Hx. by injection Hx as ->. }
  assert (∀ q, w_rdb w' !! q = if decide (q = [] ∨ zielen_dir `prefix_of` q) then None
                          else (λ n, RData (is_Dir n) (c_now C)) <$> m !! (c_R C ++ q)) as HR.
  { intros q. rewrite ER, sr_add_lookup, lookup_empty. case_bool_decide as Hq.
    - pose proof Hq as [H1 [n E]]%Hin. rewrite decide_False by done. rewrite E. cbn. by rewrite (Hk q n).
    - rewrite Hin in Hq. case_decide; [done|]. destruct (m !! (c_R C ++ q)) eqn:E; [|done]. destruct Hq. split; [done|by eexists]. }
  assert (∀ q, ld_dir <$> w_ldb w' !! q = rd_dir <$> w_rdb w' !! q) as HL.
  { intros q. rewrite HR, EL, sl_add_dir. case_bool_decide as Hq.
    - pose proof Hq as [H1 [n E]]%Hin. rewrite decide_False by done. rewrite E. cbn. by rewrite (Hk q n).
    - rewrite Hin in Hq. case_decide; [done|]. destruct (m !! (c_R C ++ q)) eqn:E; [|done]. destruct Hq. split; [done|by eexists]. }
  split_and!; try done.
  intros q d E Ed. pose proof (HL q) as E2. rewrite E, HR in E2. cbn in E2. case_decide as Hq; [done|].
  destruct (m !! (c_R C ++ q)) as [n|] eqn:En; [|done]. cbn in E2.
  assert (q ∈ files ++ dirs) as Hqi by (apply Hin; split; [done|by eexists]).
  pose proof (Hk q n En Hqi) as Hb. assert (is_Dir n = false) as Hn by congruence. rewrite Hn in Hb. apply orb_false_iff in Hb as [Hb1 Hb2].
  rewrite EL in E.
  assert (¬ ∃ r, r ∈ files ++ dirs ∧ below r q) as Hnb.
  { intros (r & [_ [n' E']]%Hin & (x & s & ->)).
    assert (dir_at m (c_R C ++ q)) as Hx .
    { rewrite app_assoc in E'. clear -Hwf E'. revert n' E'. induction s as [|y s IH] using rev_ind; intros n' E'.
      - apply Hwf in E' as (_ & _ & Hx). by rewrite parent_snoc in Hx.
      - change (x :: s ++ [y]) with ((x :: s) ++ [y]) in E'. rewrite app_assoc in E'. apply Hwf in E' as (_ & _ & Hx). rewrite parent_snoc in Hx.
        apply dir_at_lookup in Hx as [k Hx]; [|by apply app_ne]. by eapply IH. }
    apply dir_at_lookup in Hx as [k Hx]; [|apply app_ne; tauto]. rewrite En in Hx. by injection Hx as ->. }
  destruct (sl_add_file _ _ _ _ _ _ _ Hnb E) as [?|(_ & _ & ->)]; [done|]. by rewrite Hb1.
Qed.

(** ** C45 Initialisation preserves every file at every crash point.
    Partial: without links that are to be moved, except in a first attempt
    whose output is not a terminal; a failure other than missing space is not
    considered. *)
Theorem C45_init_safe_partial C m0 t w fits :
  new_dirs C m0 → names_only C m0 → (∀ l, c_iter C l ≡ₚ l) →
  (attempts C m0 t w ∧ plain_files C m0) ∨ (w = first m0 t ∧ c_tty C = false) →
  let '(states, w', _) := init_main C false fits w in
  nothing_lost C m0 (w_fs w') ∧ ∀ w1, w1 ∈ states → nothing_lost C m0 (w_fs w1).
Proof.
  intros N HG Hit Hor.
  assert (waiting C m0 t w ∧ ((bare C (w_fs w) ∧ c_tty C = false) ∨ plain_files C m0)) as [W Hp].
  { destruct Hor as [[A Hp]|[-> Ht]].
    - split; [by apply attempts_waiting|by right].
    - split; [split; [by apply partway_start, start_ok|done]|]. left. split; [by apply bare_start|done]. }
  pose proof (init_main_states C m0 t w fits N HG Hit Hp W) as [H1 H2].
  destruct (init_main C false fits w) as [[tr w'] r]. cbn [fst snd] in *. rewrite Forall_forall in H1.
  split; [apply H2|done].
Qed.
Print Assumptions C45_init_safe_partial.

(** ** C46 Initialisation can be resumed.
    Partial: without links that are to be moved ([C46_link_refuted]). *)
Theorem C46_resume_partial C m0 t w :
  new_dirs C m0 → names_only C m0 → (∀ l, c_iter C l ≡ₚ l) → plain_files C m0 → attempts C m0 t w →
  let '(_, w', r) := init_main C false true w in
  r = Ok tt ∧ finished C m0 (w_fs w') ∧ w_last w' = Some (c_end C)
  ∧ w_fs w' !! exclude_file C = Some (File (c_patterns C) (c_now C)).
Proof.
  intros N HG Hit Hp A. pose proof (attempts_waiting C m0 t w N HG Hp A) as W.
  pose proof (init_main_states C m0 t w true N HG Hit (or_intror Hp) W) as [_ H].
  destruct (init_main C false true w) as [[tr w'] r]. cbn [fst snd] in *. naive_solver.
Qed.
Print Assumptions C46_resume_partial.

(** ** C72 Initialisation moves the files and lists them.
    Partial: links that are to be moved only if the output is not a terminal
    ([C72_dangling_refuted]). *)
Theorem C72_init_partial C m0 t :
  new_dirs C m0 → names_only C m0 → (∀ l, c_iter C l ≡ₚ l) → c_tty C = false ∨ plain_files C m0 →
  let '(_, w', r) := init_main C false true (first m0 t) in
  r = Ok tt ∧ finished C m0 (w_fs w') ∧ w_last w' = Some (c_end C)
  ∧ (∀ q, w_rdb w' !! q = if decide (q = [] ∨ zielen_dir `prefix_of` q) then None
                          else (λ n, RData (is_Dir n) (c_now C)) <$> w_fs w' !! (c_R C ++ q))
  ∧ (∀ q, ld_dir <$> w_ldb w' !! q = rd_dir <$> w_rdb w' !! q)
  ∧ (∀ q d, w_ldb w' !! q = Some d → ld_dir d = false → d = LData false 0%Qc false).
Proof.
  intros N HG Hit Hp. pose proof (init_fresh C m0 t N HG Hit Hp) as H. destruct (init_main C false true (first m0 t)) as [[tr w'] r].
  naive_solver.
Qed.
Print Assumptions C72_init_partial.

(** ** Examples and counterexamples *)
Definition gl2 (c : list N) (m : fs) (s : path) : pset :=
  if bool_decide (is_Some (m !! (s ++ e "d" ++ e "s"))) then {[ e "d" ++ e "s" ]} else ∅.
Definition exI (tty : bool) (g : list N → fs → path → pset) : conf := {|
  c_L := pL; c_R := pR; c_limit := 100000; c_account := true; c_inflate := true; c_trash := true;
  c_cleanup := Some 8%Z; c_id := lit "me"; c_patterns := lit "x"; c_glob := g;
  c_block := 4096; c_blocks := c_blocks exC;
  c_now := 20; c_end := 21; c_dt := ex_dt; c_iter := id; c_rows := id; c_tty := tty |}.
Definition tree_of (l : list (path * node)) : fs := list_to_map ([(pL, Dir 1); (pR, Dir 1)] ++ map (λ qn, (pL ++ qn.1, qn.2)) l)%Z.
Lemma tree_of_in l k n : tree_of l !! k = Some n → k = pL ∨ k = pR ∨ ∃ q, k = pL ++ q ∧ (q, n) ∈ l.
Proof.
  unfold tree_of. intros E. apply elem_of_list_to_map_2 in E. simpl in E.
  apply elem_of_cons in E as [E|E]; [injection E as -> ->; by left|].
  apply elem_of_cons in E as [E|E]; [injection E as -> ->; right; by left|].
  right. right. apply elem_of_list_fmap in E as ([q n'] & E & Hin). injection E as -> ->. by exists q.
Qed.
Lemma tree_of_local l q n : q ≠ [] → tree_of l !! (pL ++ q) = Some n → (q, n) ∈ l.
Proof.
  intros Hq E. apply tree_of_in in E as [E|[E|(q' & E & Hin)]].
  - destruct q; [done|]. discriminate E.
  - discriminate E.
  - apply app_inv_head in E as ->. done.
Qed.
Lemma tree_of_remote l q : q ≠ [] → tree_of l !! (pR ++ q) = None.
Proof.
  intros Hq. destruct (tree_of l !! (pR ++ q)) as [n|] eqn:E; [|done]. exfalso. apply tree_of_in in E as [E|[E|(q' & E & Hin)]].
  - discriminate E.
  - destruct q; [done|]. discriminate E.
  - discriminate E.
Qed.
(** No entry is named ".zielen", and no link is named like its directory. *)
Definition tame (l : list (path * node)) : bool :=
  forallb (λ qn, negb (bool_decide (zielen_dir `prefix_of` qn.1)) &&
    match qn.2 with Link _ _ => negb (bool_decide (last (parent qn.1) = last qn.1)) | _ => true end) l.
Lemma tame_new_dirs tty g l :
  bool_decide (wf_fs (tree_of l)) && bool_decide (dir_at (tree_of l) pL) && bool_decide (dir_at (tree_of l) pR) && tame l = true → new_dirs (exI tty g) (tree_of l).
Proof.
  rewrite !andb_true_iff, !bool_decide_eq_true. intros (((Hw & HL) & HR) & Ht). unfold tame in Ht. rewrite forallb_forall in Ht.
  split; try done.
  - split; intros [x Hx]; discriminate Hx.
  - apply tree_of_remote.
  - intros q Hz. destruct (tree_of l !! _) as [n|] eqn:E; [|done]. exfalso.
    assert (q ≠ []) as Hq by (intros ->; by apply prefix_nil_inv in Hz). apply tree_of_local in E; [|done].
    apply elem_of_list_In, Ht, andb_true_iff in E as [E _]. cbn [fst] in E. by rewrite bool_decide_true in E.
  - decided.
  - intros q x t k Hq Hx E _. apply tree_of_local in E; [|by destruct q].
    apply elem_of_list_In, Ht, andb_true_iff in E as [_ E]. cbn [fst snd] in E. rewrite parent_snoc, last_snoc, Hx in E. by rewrite bool_decide_true in E.
Qed.
Lemma single_names (tty : bool) (p : path) (g : list N → fs → path → pset) m0 :
  (∀ c m s, g c m s = if bool_decide (is_Some (m !! (s ++ p))) then {[ p ]} else ∅) → names_only (exI tty g) m0.
Proof.
  intros Hg m _ _ q Hq Hs. change (c_glob (exI tty g)) with g. rewrite !Hg.
  case_bool_decide as H1; case_bool_decide as H2; rewrite ?elem_of_singleton, ?elem_of_empty; split; try naive_solver.
Qed.
Lemma names_x tty m0 : names_only (exI tty (λ _ m s, ex_glob (lit "x") m s)) m0.
Proof. by apply (single_names tty [lit "x"]). Qed.
Lemma names_2 tty m0 : names_only (exI tty gl2) m0.
Proof. by apply (single_names tty (e "d" ++ e "s")). Qed.

(** An excluded file, a link that leads out, a directory and files. *)
Definition iP : list (path * node) :=
  [(e "d", Dir 4); (e "d" ++ e "a", File (lit "aa") 5); (e "f", File (lit "ff") 6); (e "x", File (lit "xx") 5); (e "u", Link (lit "/etc") 3)]%Z.
Definition exP := exI true (λ _ m s, ex_glob (lit "x") m s).
Lemma iP_new : new_dirs exP (tree_of iP).
Proof. apply tame_new_dirs. vm_compute. reflexivity. Qed.
Lemma iP_plain : plain_files exP (tree_of iP).
Proof.
  intros q l t (Hq & _ & _ & Hs) E. pose proof E as E'. apply (tree_of_local iP) in E; [|done].
  apply elem_of_list_In in E. simpl in E. destruct E as [E|[E|[E|[E|[E|E]]]]]; try done. injection E as <- <- <-.
  by destruct (Hs _ _ E').
Qed.
Definition cut (C : conf) (m0 : fs) (n : nat) : world := reboot (default (first m0 None) ((init_files C false true (first m0 None)).1.1 !! n)).
Lemma cut_attempts C m0 n : (∀ l, c_iter C l ≡ₚ l) → attempts C m0 None (cut C m0 n).
Proof.
  intros Hit. unfold cut. destruct ((init_files C false true (first m0 None)).1.1 !! n) as [w1|] eqn:E.
  - simpl. eapply at_cut; [apply at_first| |by eapply elem_of_list_lookup_2]. by split.
  - apply at_first.
Qed.
(** Interrupted when [f] has been replaced by a link. *)
Example C45_example :
  let w := cut exP (tree_of iP) 13 in
  new_dirs exP (tree_of iP) ∧ names_only exP (tree_of iP) ∧ plain_files exP (tree_of iP) ∧ attempts exP (tree_of iP) None w
  ∧ node_is (w_fs w) (pL ++ e "f") (Some (Link (lit "/r/f") 20)) && node_is (w_fs w) (pR ++ e "f") (Some (File (lit "ff") 6))
    && node_is (w_fs w) (pL ++ e "d" ++ e "a") (Some (File (lit "aa") 5)) = true.
Proof.
  split; [apply iP_new|]. split; [apply names_x|]. split; [apply iP_plain|]. split; [by apply cut_attempts|]. vm_compute. reflexivity.
Qed.
(** The second attempt finishes, from each of the 18 states. *)
Example C46_example :
  forallb (λ n, let x := init_main exP false true (cut exP (tree_of iP) n) in
     is_ok x.2 && node_is (w_fs x.1.2) (pL ++ e "f") (Some (Link (lit "/r/f") 20)) && node_is (w_fs x.1.2) (pR ++ e "f") (Some (File (lit "ff") 6))
     && node_is (w_fs x.1.2) (pL ++ e "x") (Some (File (lit "xx") 5)) && node_is (w_fs x.1.2) (pR ++ e "x") None
     && node_is (w_fs x.1.2) (pR ++ e "d" ++ e "a") (Some (File (lit "aa") 5))) [0; 7; 13; 17] = true.
Proof. vm_compute. reflexivity. Qed.

(** A link to a directory with an excluded file of the same name. *)
Definition iS : list (path * node) := [(e "d", Dir 4); (e "d" ++ e "s", File (lit "secret") 5); (e "s", Link (lit "d") 3)]%Z.
Lemma iS_new tty : new_dirs (exI tty gl2) (tree_of iS).
Proof. apply tame_new_dirs. vm_compute. reflexivity. Qed.
Example C72_example :
  new_dirs (exI false gl2) (tree_of iS) ∧ names_only (exI false gl2) (tree_of iS)
  ∧ let x := init_main (exI false gl2) false true (first (tree_of iS) None) in
    is_ok x.2 && node_is (w_fs x.1.2) (pL ++ e "s") (Some (Link (lit "/r/s") 20)) && node_is (w_fs x.1.2) (pR ++ e "s") (Some (Link (lit "d") 3))
    && node_is (w_fs x.1.2) (pL ++ e "d" ++ e "s") (Some (File (lit "secret") 5)) && set_is (dom (w_ldb x.1.2)) [e "d"; e "s"] = true.
Proof. split; [apply iS_new|]. split; [apply names_2|]. vm_compute. reflexivity. Qed.

Lemma init_witness C add fits w (P : res unit → world → bool) :
  (let x := init_main C add fits w in P x.2 x.1.2) = true → let '(_, w', r) := init_main C add fits w in P r w' = true.
Proof. cbv zeta. by destruct (init_main C add fits w) as [[tr w'] r]. Qed.

(** C45 fails after an interruption: the copy of the link [s] is put into the
    directory [d] that the link in the remote directory leads to, and the
    excluded local file [d/s] is then replaced by a link to it. *)
Theorem C45_excluded_refuted : ∃ C m0 t w q c k,
  new_dirs C m0 ∧ names_only C m0 ∧ (∀ l, c_iter C l ≡ₚ l) ∧ c_tty C = false ∧ attempts C m0 t w
  ∧ m0 !! (c_L C ++ q) = Some (File c k) ∧ ¬ goes C m0 q
  ∧ let '(_, w', r) := init_main C false true w in r = Ok tt ∧ ∀ p t', w_fs w' !! p ≠ Some (File c t').
Proof.
  exists (exI false gl2), (tree_of iS), None, (cut (exI false gl2) (tree_of iS) 5), (e "d" ++ e "s"), (lit "secret"), 5%Z.
  split; [apply iS_new|]. split; [apply names_2|]. split; [done|]. split; [done|]. split; [by apply cut_attempts|]. split; [by vm_compute|].
  split. { intros (_ & _ & Hn & _). apply Hn. apply (bool_decide_unpack _). vm_compute. exact I. }
  pose proof (init_witness (exI false gl2) false true (cut (exI false gl2) (tree_of iS) 5)
    (λ r w', is_ok r && lost (lit "secret") (w_fs w')) ltac:(vm_compute; reflexivity)) as H.
  destruct (init_main _ _ _ _) as [[tr w'] r]. apply andb_prop in H as [H1 H2]. split; [by apply is_ok_spec|]. by apply lost_spec.
Qed.
Print Assumptions C45_excluded_refuted.

(** C46 fails for links: a second attempt leaves an entry in the remote
    directory that was never in the local one. *)
Definition iT : list (path * node) := [(e "d", Dir 4); (e "s", Link (lit "d") 3)]%Z.
Theorem C46_link_refuted : ∃ C m0 t w,
  new_dirs C m0 ∧ names_only C m0 ∧ (∀ l, c_iter C l ≡ₚ l) ∧ c_tty C = false ∧ attempts C m0 t w
  ∧ let '(_, w', r) := init_main C false true w in r = Ok tt ∧ ¬ finished C m0 (w_fs w').
Proof.
  exists (exI false gl2), (tree_of iT), None, (cut (exI false gl2) (tree_of iT) 5).
  split; [apply tame_new_dirs; vm_compute; reflexivity|]. split; [apply names_2|]. split; [done|]. split; [done|]. split; [by apply cut_attempts|].
  pose proof (init_witness (exI false gl2) false true (cut (exI false gl2) (tree_of iT) 5)
    (λ r w', is_ok r && node_is (w_fs w') (pR ++ e "d" ++ e "s") (Some (Link (lit "d") 3))) ltac:(vm_compute; reflexivity)) as H.
  destruct (init_main _ _ _ _) as [[tr w'] r]. apply andb_prop in H as [H1 H2]. split; [by apply is_ok_spec|]. apply node_is_spec in H2.
  intros F. destruct (fi_only _ _ _ F (e "d" ++ e "s") _ ltac:(done) ltac:(intros [x Hx]; discriminate Hx) H2) as (q & Hg & Hp & Hn).
  destruct (decide (e "d" ++ e "s" = q)) as [<-|Hne]; [|by specialize (Hn Hne)].
  destruct Hg as (_ & [n E] & _). by vm_compute in E.
Qed.
Print Assumptions C46_link_refuted.

Definition absent {A} (o : option A) : bool := match o with Some _ => false | None => true end.
Definition unlisted_f (r : res unit) (w' : world) : bool :=
  is_ok r && node_is (w_fs w') (pR ++ e "f") (Some (File (lit "ff") 6)) && absent (w_ldb w' !! e "f") && absent (w_rdb w' !! e "f").
Lemma unlisted_f_true : (let x := init_main exP false true (cut exP (tree_of iP) 13) in unlisted_f x.2 x.1.2) = true.
Proof. vm_compute. reflexivity. Qed.
(** After an interruption the databases do not list every file. *)
Theorem C46_databases_refuted : ∃ C m0 t w q,
  new_dirs C m0 ∧ names_only C m0 ∧ (∀ l, c_iter C l ≡ₚ l) ∧ plain_files C m0 ∧ attempts C m0 t w ∧ goes C m0 q
  ∧ let '(_, w', r) := init_main C false true w in r = Ok tt ∧ is_Some (w_fs w' !! (c_R C ++ q)) ∧ w_ldb w' !! q = None ∧ w_rdb w' !! q = None.
Proof.
  exists exP, (tree_of iP), None, (cut exP (tree_of iP) 13), (e "f").
  split; [apply iP_new|]. split; [apply names_x|]. split; [done|]. split; [apply iP_plain|]. split; [by apply cut_attempts|].
  split.
  { split; [done|]. split; [by eexists; vm_compute|]. split.
    - intros H. revert H. apply (bool_decide_unpack (¬ _)). vm_compute. exact I.
    - intros t k E. exfalso. revert E. by vm_compute. }
  pose proof (init_witness exP false true (cut exP (tree_of iP) 13) unlisted_f unlisted_f_true) as H. unfold unlisted_f in H.
  destruct (init_main _ _ _ _) as [[tr w'] r]. apply andb_prop in H as [H H4]. apply andb_prop in H as [H H3]. apply andb_prop in H as [H1 H2].
  split; [by apply is_ok_spec|]. apply node_is_spec in H2. split; [by eexists|]. split; [destruct (w_ldb w' !! _)|destruct (w_rdb w' !! _)]; done.
Qed.
Print Assumptions C46_databases_refuted.

(** A dangling link in the local directory: with the output on a terminal,
    [init] never succeeds. *)
Definition iD : list (path * node) := [(e "f", File (lit "ff") 6); (e "s", Link (lit "nope") 3)]%Z.
Theorem C72_dangling_refuted : ∃ C m0 t,
  new_dirs C m0 ∧ names_only C m0 ∧ (∀ l, c_iter C l ≡ₚ l)
  ∧ let '(_, w', r) := init_main C false true (first m0 t) in r = Err FileNotFound ∧ w_last w' = t.
Proof.
  exists (exI true gl2), (tree_of iD), None.
  split; [apply tame_new_dirs; vm_compute; reflexivity|]. split; [apply names_2|]. split; [done|].
  pose proof (init_witness (exI true gl2) false true (first (tree_of iD) None)
    (λ r w', is_err FileNotFound r && absent (w_last w')) ltac:(vm_compute; reflexivity)) as H.
  destruct (init_main _ _ _ _) as [[tr w'] r]. apply andb_prop in H as [H1 H2]. split; [by apply is_err_spec|by destruct (w_last w')].
Qed.
Print Assumptions C72_dangling_refuted.
