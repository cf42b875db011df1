(** What the functions of [Fstools] do on ordinary trees. *)
From Verif Require Export FSProofs Fstools.
From stdpp Require Import options.

(** ** [entries] and [scan_tree] *)
Lemma elem_of_entries (m : fs) (d : path) x n : (x, n) ∈ entries m d ↔ m !! (d ++ [x]) = Some n.
Proof.
  unfold entries. rewrite elem_of_list_omap. split.
  - intros ([k n'] & Hin & E). apply elem_of_map_to_list in Hin. simpl in E.
    destruct (decide (child_of k d)) as [[y ->]|]; [|done]. rewrite last_snoc in E. injection E as -> ->. done.
  - intros Hm. exists (d ++ [x], n). split; [by apply elem_of_map_to_list|]. simpl.
    rewrite decide_True by (by exists x). by rewrite last_snoc.
Qed.
Lemma NoDup_entries (m : fs) (d : path) : NoDup (map fst (entries m d)).
Proof.
  unfold entries. pose proof (NoDup_fst_map_to_list m) as Hnd.
  induction (map_to_list m) as [|[k n] l IH]; simpl; [constructor|].
  simpl in Hnd. inversion_clear Hnd as [|? ? Hk Hnd'].
  destruct (decide (child_of k d)) as [[y Hy]|]; [|by apply IH]. subst k. rewrite last_snoc. simpl. constructor; [|by apply IH].
  intros Hin. apply elem_of_list_fmap in Hin as ([z n'] & E & Hin). simpl in E. subst z.
  apply elem_of_list_omap in Hin as ([k n''] & Hin & E). simpl in E.
  destruct (decide (child_of k d)) as [[z ->]|]; [|done]. rewrite last_snoc in E. injection E as -> ->.
  apply Hk. apply elem_of_list_fmap. exists (d ++ [y], n'). done.
Qed.
Lemma entries_nil (m : fs) (d : path) : entries m d = [] ↔ ∀ q n, m !! q = Some n → ¬ child_of q d.
Proof.
  split.
  - intros E q n Hq [x ->]. assert ((x, n) ∈ entries m d) as H by (by apply elem_of_entries). rewrite E in H. by apply elem_of_nil in H.
  - intros H. destruct (entries m d) as [|[x n] l] eqn:E; [done|]. exfalso.
    assert ((x, n) ∈ entries m d) as Hx by (rewrite E; left). apply elem_of_entries in Hx. eapply H; [done|by exists x].
Qed.

Lemma below_app (d p q : path) : below q p → below (d ++ q) (d ++ p).
Proof. intros (x & l & ->). exists x, l. by rewrite app_assoc. Qed.

Section scan.
  Context (m : fs) (Hwf : wf_fs m).
  Definition depth_bound (d : path) (n : nat) : Prop := ∀ q k, m !! q = Some k → below q d → length q <= length d + n.

  (** [p] may be a link to the directory [d]; the entries are reported below [p]. *)
  Lemma scan_tree_aux_spec n : ∀ p d,
    (∀ s, valid_comps s → dir_at m (d ++ s) → resolve true m (p ++ s) = Ok (d ++ s)) →
    dir_at m d → depth_bound d n →
    ∃ l, scan_tree_aux (S n) m p = Ok l ∧ NoDup l ∧ ∀ q, q ∈ l ↔ ∃ s k, q = p ++ s ∧ s ≠ [] ∧ m !! (d ++ s) = Some k.
  Proof using Hwf.
    induction n as [|n IH]; intros p d Hr Hd Hb.
    - (* no entries *)
      assert (Hnone : ∀ q k, m !! q = Some k → ¬ below q d).
      { intros q k Hq Hbe. pose proof (Hb q k Hq Hbe). destruct Hbe as (x & l & ->). rewrite app_length in H. simpl in H. lia. }
      exists []. split; [|split; [constructor|]].
      + simpl. unfold scandir. pose proof (Hr [] ltac:(constructor)) as Hr0. rewrite !app_nil_r in Hr0. rewrite Hr0 by done.
        destruct Hd as [t ->]. assert (entries m d = []) as ->; [|done]. apply entries_nil.
        intros q k Hq Hc. apply (Hnone q k Hq). destruct Hc as [x ->]. by exists x, [].
      + intros q. rewrite elem_of_nil. split; [done|]. intros (s & k & -> & Hs & Hk).
        apply (Hnone _ _ Hk). destruct s as [|x s]; [done|]. by exists x, s.
    - remember (S n) as n1 eqn:En1. simpl. unfold scandir. pose proof (Hr [] ltac:(constructor)) as Hr0. rewrite !app_nil_r in Hr0. rewrite Hr0 by done.
      destruct Hd as [t Ht]. rewrite Ht. clear Hr0.
      assert (Hsub : ∀ es, NoDup (map fst es) → (∀ x k, (x, k) ∈ es → m !! (d ++ [x]) = Some k) →
        ∃ l, foldr (λ xn acc, match acc with Err e => Err e | Ok l =>
                if is_Dir xn.2 then match scan_tree_aux n1 m (p ++ [xn.1]) with
                  | Ok l' => Ok ((p ++ [xn.1]) :: l' ++ l) | Err e => Err e end
                else Ok ((p ++ [xn.1]) :: l) end) (Ok []) es = Ok l ∧ NoDup l ∧
          ∀ q, q ∈ l ↔ ∃ x s k, q = p ++ x :: s ∧ x ∈ map fst es ∧ m !! (d ++ x :: s) = Some k).
      { induction es as [|[x k] es IHes]; intros Hnd Hes.
        - exists []. split; [done|]. split; [constructor|]. intros q. rewrite elem_of_nil. split; [done|].
          intros (x & s & k & _ & H & _). by apply elem_of_nil in H.
        - simpl in Hnd. inversion_clear Hnd as [|? ? Hx Hnd'].
          destruct IHes as (l & El & Hl & Hin); [done| |].
          { intros y k' Hy. apply Hes. by right. }
          cbn [foldr]. rewrite El. cbn [fst snd].
          pose proof (Hes x k ltac:(left)) as Hk.
          assert (Hnotin : ∀ s, p ++ x :: s ∉ l).
          { intros s Hs. apply Hin in Hs as (y & s' & k' & E & Hy & _). apply app_inv_head in E. injection E as <- <-. done. }
          destruct (is_Dir k) eqn:Ed.
          + destruct (IH (p ++ [x]) (d ++ [x])) as (l' & El' & Hl' & Hin').
            { intros s Hs Hds. rewrite <-!app_assoc. apply Hr.
              - apply valid_app. split; [|done]. pose proof (wf_valid m Hwf _ _ Hk) as Hv. by apply valid_app in Hv as [_ ?].
              - by rewrite <-app_assoc in Hds. }
            { apply is_Dir_true in Ed as [t' ->]. exists t'. by rewrite node_at_app_ne. }
            { intros q k' Hq Hbe. assert (below q d) as Hbd by (destruct Hbe as (y & s & ->); exists x, (y :: s); by rewrite <-app_assoc).
              pose proof (Hb q k' Hq Hbd). rewrite app_length. simpl. lia. }
            rewrite El'. eexists. split; [done|]. split.
            * constructor.
              -- rewrite elem_of_app. intros [H|H]; [|by apply (Hnotin [])].
                 apply Hin' in H as (s & k' & E & Hs & _). rewrite <-(app_nil_r (p ++ [x])) in E at 1. by apply app_inv_head in E.
              -- apply NoDup_app. split; [done|]. split; [|done]. intros q Hq Hq'.
                 apply Hin' in Hq as (s & k' & -> & Hs & _). rewrite <-app_assoc in Hq'. by apply (Hnotin s).
            * intros q. rewrite elem_of_cons, elem_of_app, Hin, Hin'. split.
              -- intros [->|[(s & k' & -> & Hs & Hk')|(y & s & k' & -> & Hy & Hk')]].
                 ++ exists x, [], k. split; [done|]. split; [by left|done].
                 ++ exists x, s, k'. rewrite <-app_assoc. split; [done|]. split; [by left|]. by rewrite <-app_assoc in Hk'.
                 ++ exists y, s, k'. split; [done|]. split; [by right|done].
              -- intros (y & s & k' & -> & Hy & Hk'). simpl in Hy. apply elem_of_cons in Hy as [->|Hy].
                 ++ destruct s as [|z s]; [by left|]. right; left. exists (z :: s), k'. rewrite <-!app_assoc. done.
                 ++ right; right. exists y, s, k'. done.
          + eexists. split; [done|]. split; [by constructor; [apply (Hnotin [])|]|].
            intros q. rewrite elem_of_cons, Hin. split.
            * intros [->|(y & s & k' & -> & Hy & Hk')].
              -- exists x, [], k. split; [done|]. split; [by left|done].
              -- exists y, s, k'. split; [done|]. split; [by right|done].
            * intros (y & s & k' & -> & Hy & Hk'). simpl in Hy. apply elem_of_cons in Hy as [->|Hy].
              -- destruct s as [|z s]; [by left|]. exfalso.
                 assert (dir_at m (d ++ [x])) as [t' Hd'].
                 { eapply (wf_anc m Hwf); [exact Hk'| |].
                   - exists (z :: s). by rewrite <-app_assoc.
                   - intros E. apply app_inv_head in E. done. }
                 rewrite node_at_app_ne, Hk in Hd' by done. injection Hd' as ->. done.
              -- right. exists y, s, k'. done. }
      destruct (Hsub (entries m d)) as (l & El & Hl & Hin).
      { apply NoDup_entries. }
      { intros x k Hx. by apply elem_of_entries. }
      exists l. split; [exact El|]. split; [done|]. intros q. rewrite Hin. split.
      + intros (x & s & k & -> & _ & Hk). by exists (x :: s), k.
      + intros ([|x s] & k & -> & Hs & Hk); [done|]. exists x, s, k. split; [done|]. split; [|done].
        assert (∃ k', m !! (d ++ [x]) = Some k') as [k' Hk'].
        { destruct s as [|y s]; [eauto|]. assert (dir_at m (d ++ [x])) as [t' Hd'].
          - eapply (wf_anc m Hwf); [exact Hk| |].
            + exists (y :: s). by rewrite <-app_assoc.
            + intros E. apply app_inv_head in E. done.
          - rewrite node_at_app_ne in Hd' by done. eauto. }
        apply elem_of_list_fmap. exists (x, k'). split; [done|]. by apply elem_of_entries.
  Qed.
  (** Every entry of the tree is at most as deep as there are entries. *)
  Lemma depth_size d : depth_bound d (size m).
  Proof using Hwf.
    intros q k Hq (x & l & ->).
    assert (size (list_to_set (map (λ i, d ++ take (S i) (x :: l)) (seq 0 (S (length l)))) : gset path) <= size (dom m)) as Hle.
    { apply subseteq_size. intros a Ha. apply elem_of_list_to_set, elem_of_list_fmap in Ha as (i & -> & Hi).
      apply elem_of_seq in Hi. apply elem_of_dom.
      assert (d ++ take (S i) (x :: l) `prefix_of` d ++ x :: l) as Hp by (apply prefix_app; exists (drop (S i) (x :: l)); by rewrite take_drop).
      destruct (decide (d ++ take (S i) (x :: l) = d ++ x :: l)) as [->|Hne]; [eauto|].
      destruct (wf_anc m Hwf _ _ _ Hq Hp Hne) as [t Ht]. rewrite node_at_ne in Ht by (by destruct d). eauto. }
    rewrite size_list_to_set in Hle.
    - rewrite map_length, seq_length, size_dom in Hle. rewrite app_length. simpl. lia.
    - apply NoDup_fmap_2_strong; [|apply NoDup_seq]. intros i j Hi Hj E.
      apply elem_of_seq in Hi, Hj. apply app_inv_head in E. apply (f_equal length) in E.
      rewrite !take_length in E. simpl length in E. lia.
  Qed.
  Lemma scan_tree_at p d :
    (∀ s, valid_comps s → dir_at m (d ++ s) → resolve true m (p ++ s) = Ok (d ++ s)) → dir_at m d →
    ∃ l, scan_tree m p = Ok l ∧ NoDup l ∧ ∀ q, q ∈ l ↔ ∃ s k, q = p ++ s ∧ s ≠ [] ∧ m !! (d ++ s) = Some k.
  Proof using Hwf. intros Hr Hd. apply scan_tree_aux_spec; [done|done|apply depth_size]. Qed.
  Lemma scan_tree_dir p : dir_at m p →
    ∃ l, scan_tree m p = Ok l ∧ NoDup l ∧ ∀ q, q ∈ l ↔ ∃ s k, q = p ++ s ∧ s ≠ [] ∧ m !! (p ++ s) = Some k.
  Proof using Hwf. intros Hd. apply scan_tree_at; [|done]. intros s _ Hs. by apply resolve_dir. Qed.
  Lemma scan_tree_file p n : m !! p = Some n → is_File n = true → scan_tree m p = Err NotADir.
  Proof using Hwf.
    intros Hp Hn. unfold scan_tree. simpl. unfold scandir. destruct (Hwf p n Hp) as (Hne & Hv & Hd).
    rewrite resolve_follow; [|done|done|done|].
    - rewrite node_at_ne, Hp by done. by destruct n.
    - intros t k E. rewrite Hp in E. injection E as ->. done.
  Qed.
End scan.

(** ** Copying *)
Lemma write_file_wp (now : Z) (I : fs → Prop) (q : path) (c : list N) (Q : res unit → fs → Prop) (m : fs) :
  (∀ i, I (<[q:=File (take i c) now]> m)) → Q (Ok tt) (<[q:=File c now]> m) → wp (write_file now q c) I Q m.
Proof.
  intros HI HQ. unfold write_file. apply wp_bind, wp_put; [apply (HI 0)|].
  apply (wp_for_inv I _ _ (λ l m', m' = <[q:=File (take (length l) c) now]> m)).
  - done.
  - intros l i r m' E ->. 
    assert (i = S (length l)) as ->.
    { assert (seq 1 (length c) !! length l = Some i) as Hi by (rewrite E; by apply list_lookup_middle).
      apply lookup_seq in Hi as [-> _]. lia. }
    apply wp_put.
    + rewrite insert_insert. apply HI.
    + rewrite insert_insert, app_length. simpl. by rewrite Nat.add_comm.
  - intros m' ->. by rewrite seq_length, firstn_all.
Qed.

Lemma remove_wp (I : fs → Prop) (p : path) (Q : res unit → fs → Prop) (m : fs) n :
  wf_fs m → m !! p = Some n → is_Dir n = false → I (delete p m) → Q (Ok tt) (delete p m) → wp (remove p) I Q m.
Proof.
  intros Hwf Hp Hn HI HQ. destruct (Hwf p n Hp) as (Hne & Hv & Hd). unfold remove.
  apply wp_bind, wp_eval. rewrite resolve_nofollow by done. apply wp_bind, wp_get. rewrite node_at_ne, Hp by done.
  destruct n; [| |done]; by apply wp_put.
Qed.
Lemma utime_wp (I : fs → Prop) (f : bool) (p q : path) t (Q : res unit → fs → Prop) (m : fs) n :
  resolve f m p = Ok q → q ≠ [] → m !! q = Some n →
  I (<[q:=set_mtime t n]> m) → Q (Ok tt) (<[q:=set_mtime t n]> m) → wp (utime f p t) I Q m.
Proof.
  intros Hr Hq Hn HI HQ. unfold utime. apply wp_bind, wp_eval. rewrite Hr. apply wp_bind, wp_get.
  rewrite node_at_ne, Hn by done. rewrite bool_decide_false by done. by apply wp_put.
Qed.
Lemma symlink_wp (now : Z) (I : fs → Prop) (t : list N) (p : path) (Q : res unit → fs → Prop) (m : fs) :
  wf_fs m → valid_comps p → p ≠ [] → dir_at m (parent p) → m !! p = None →
  I (<[p:=Link t now]> m) → Q (Ok tt) (<[p:=Link t now]> m) → wp (symlink now t p) I Q m.
Proof.
  intros Hwf Hv Hne Hd Hn HI HQ. unfold symlink.
  apply wp_bind, wp_eval. rewrite resolve_nofollow by done. apply wp_bind, wp_get. rewrite node_at_ne, Hn by done. by apply wp_put.
Qed.
Lemma symlink_exists_wp (now : Z) (I : fs → Prop) (t : list N) (p : path) (Q : res unit → fs → Prop) (m : fs) n :
  wf_fs m → m !! p = Some n → Q (Err FileExists) m → wp (symlink now t p) I Q m.
Proof.
  intros Hwf Hp HQ. destruct (Hwf p n Hp) as (Hne & Hv & Hd). unfold symlink.
  apply wp_bind, wp_eval. rewrite resolve_nofollow by done. apply wp_bind, wp_get. rewrite node_at_ne, Hp by done. by apply wp_throw.
Qed.

Section copy.
  Context (now : Z) (I : fs → Prop) (src dst : path) (m : fs) (Q : res unit → fs → Prop).
  Context (Hwf : wf_fs m) (Hne : src ≠ dst) (Hdne : dst ≠ []) (Hv : valid_comps dst) (Hd : dir_at m (parent dst)).

  Lemma isdir_plain_false : (m !! dst = None ∨ ∃ c t, m !! dst = Some (File c t)) → isdir m dst = false.
  Proof using Hwf Hd Hv Hdne.
    intros H. unfold isdir. rewrite stat_follow; [|done|done|done|].
    - rewrite node_at_ne by done. by destruct H as [->|(c & t & ->)].
    - intros t k E. destruct H as [H|(c & t' & H)]; congruence.
  Qed.
  Lemma copy2_file (c : list N) (t : Z) :
    m !! src = Some (File c t) → (m !! dst = None ∨ ∃ c t, m !! dst = Some (File c t)) →
    (∀ i, I (<[dst:=File (take i c) now]> m)) → I (<[dst:=File c t]> m) →
    Q (Ok tt) (<[dst:=File c t]> m) → wp (copy2 now src dst) I Q m.
  Proof using Hwf Hd Hv Hdne Hne.
    intros Hs Hdst HI HI' HQ. destruct (Hwf src _ Hs) as (Hsne & Hsv & Hsd).
    assert (Hnl : ∀ t k, m !! dst ≠ Some (Link t k)) by (intros t' k E; destruct Hdst as [H|(c' & t'' & H)]; congruence).
    assert (Hrd : resolve true m dst = Ok dst) by (by apply resolve_follow).
    assert (Hrs : resolve true m src = Ok src) by (apply resolve_follow; [done|done|done|intros ?? E; congruence]).
    unfold copy2. apply wp_bind, wp_get. rewrite isdir_plain_false by done. cbv zeta.
    apply wp_bind. unfold copyfile. apply wp_bind, wp_get. unfold samefile. rewrite Hrs, Hrd.
    rewrite bool_decide_false by done. simpl. apply wp_bind, wp_get. rewrite (readlink_lookup m Hwf src _ Hs).
    apply wp_bind, wp_eval. rewrite (stat_lookup_follow m Hwf src _ Hs) by done.
    apply wp_bind, wp_eval. rewrite Hrd. apply wp_bind, wp_get. rewrite node_at_ne by done.
    assert (Hwf' : ∀ n, is_Dir n = false → wf_fs (<[dst:=n]> m)).
    { intros n Hn. apply wf_insert; [done|done|done|done|]. intros t' E. destruct Hdst as [H|(c' & t'' & H)]; congruence. }
    assert (wp (write_file now dst c) I (λ r s', match r with
       | Ok _ => wp (copystat src dst) I Q s' | Err e => Q (Err e) s' end) m) as Hw.
    { apply write_file_wp; [done|]. set (m' := <[dst:=_]> m).
      assert (Hm' : m' !! src = Some (File c t)) by (unfold m'; by rewrite lookup_insert_ne).
      assert (Hwfm : wf_fs m') by (by apply Hwf').
      assert (Hdst' : m' !! dst = Some (File c now)) by (unfold m'; by rewrite lookup_insert).
      unfold copystat. apply wp_bind, wp_get. unfold islink. rewrite (stat_lookup m' Hwfm _ _ Hm'). simpl.
      apply wp_bind, wp_eval. rewrite (stat_lookup_follow m' Hwfm _ _ Hm') by done. simpl.
      eapply utime_wp; [|exact Hdne|exact Hdst'| |].
      - destruct (Hwfm _ _ Hdst') as (_ & ? & ?). apply resolve_follow; [done|done|done|]. intros ?? E. congruence.
      - simpl. unfold m'. by rewrite insert_insert.
      - simpl. unfold m'. by rewrite insert_insert. }
    destruct Hdst as [->|(c' & t' & ->)]; exact Hw.
  Qed.
  (** The destination is a link to the source. *)
  Lemma copy2_same (c : list N) (t : Z) : m !! src = Some (File c t) → resolve true m dst = Ok src →
    Q (Err SameFile) m → wp (copy2 now src dst) I Q m.
  Proof using Hwf.
    intros Hs Hr HQ. destruct (Hwf src _ Hs) as (Hsne & Hsv & Hsd).
    assert (Hrs : resolve true m src = Ok src) by (apply resolve_follow; [done|done|done|intros ?? E; congruence]).
    unfold copy2. apply wp_bind, wp_get.
    assert (isdir m dst = false) as ->.
    { unfold isdir, stat. rewrite Hr. by rewrite node_at_ne, Hs. }
    cbv zeta. apply wp_bind. unfold copyfile. apply wp_bind, wp_get. unfold samefile. rewrite Hrs, Hr.
    rewrite bool_decide_true by done. rewrite bool_decide_true by (rewrite node_at_ne, Hs by done; eauto). simpl. by apply wp_throw.
  Qed.
  Lemma copy2_link (l : list N) (t : Z) :
    m !! src = Some (Link l t) → m !! dst = None →
    I (<[dst:=Link l now]> m) → I (<[dst:=Link l t]> m) →
    Q (Ok tt) (<[dst:=Link l t]> m) → wp (copy2 now src dst) I Q m.
  Proof using Hwf Hd Hv Hdne Hne.
    intros Hs Hdst HI HI' HQ.
    assert (Hrd : resolve true m dst = Ok dst) by (apply resolve_follow; [done|done|done|intros ?? E; congruence]).
    unfold copy2. apply wp_bind, wp_get. rewrite isdir_plain_false by (by left). cbv zeta.
    apply wp_bind. unfold copyfile. apply wp_bind, wp_get.
    assert (samefile m src dst = false) as ->.
    { unfold samefile. rewrite Hrd. destruct (resolve true m src) as [q|]; [|done].
      case_bool_decide as E; [|done]. subst q. rewrite node_at_ne, Hdst by done. by rewrite bool_decide_false by (by intros [? ?]). }
    apply wp_bind, wp_get. rewrite (readlink_lookup m Hwf src _ Hs).
    apply symlink_wp; [done|done|done|done|done|done|]. set (m' := <[dst:=_]> m).
    assert (Hwfm : wf_fs m').
    { apply wf_insert; [done|done|done|done|]. intros t' E. congruence. }
    assert (Hm' : m' !! src = Some (Link l t)) by (unfold m'; by rewrite lookup_insert_ne).
    assert (Hdst' : m' !! dst = Some (Link l now)) by (unfold m'; by rewrite lookup_insert).
    unfold copystat. apply wp_bind, wp_get. rewrite (islink_link m' Hwfm _ _ _ Hm'), (islink_link m' Hwfm _ _ _ Hdst'). simpl.
    apply wp_bind, wp_eval. rewrite (stat_lookup m' Hwfm _ _ Hm'). simpl.
    eapply utime_wp; [|exact Hdne|exact Hdst'| |].
    - destruct (Hwfm _ _ Hdst') as (_ & ? & ?). by apply resolve_nofollow.
    - simpl. unfold m'. by rewrite insert_insert.
    - simpl. unfold m'. by rewrite insert_insert.
  Qed.
  (** The source is a link, the destination is a file. *)
  Lemma copy2_link_exists (l : list N) (t : Z) (c : list N) (k : Z) :
    m !! src = Some (Link l t) → m !! dst = Some (File c k) →
    (∀ e, e = SameFile ∨ e = FileExists → Q (Err e) m) → wp (copy2 now src dst) I Q m.
  Proof using Hwf Hd Hv Hdne Hne.
    intros Hs Hdst HQ.
    unfold copy2. apply wp_bind, wp_get. rewrite isdir_plain_false by eauto. cbv zeta.
    apply wp_bind. unfold copyfile. apply wp_bind, wp_get.
    destruct (samefile m src dst); [apply wp_throw; apply HQ; by left|].
    apply wp_bind, wp_get. rewrite (readlink_lookup m Hwf src _ Hs).
    eapply symlink_exists_wp; [done|exact Hdst|]. apply HQ. by right.
  Qed.
  (** The source is a directory. *)
  Lemma copy2_dir (x : list N) :
    dir_at m src → last src = Some x →
    (m !! dst = None ∨ (dir_at m dst ∧ resolve true m (dst ++ [x]) ≠ Ok src)) →
    Q (Err IsADir) m → wp (copy2 now src dst) I Q m.
  Proof using Hwf Hd Hv Hdne Hne.
    intros Hs Hx Hdst HQ. pose proof (resolve_dir m Hwf true src Hs) as Hrs.
    assert (Hgo : ∀ d, resolve true m d ≠ Ok src → wp (copyfile now src d ;! copystat src d) I Q m).
    { intros d Hr. apply wp_bind. unfold copyfile. apply wp_bind, wp_get. unfold samefile. rewrite Hrs.
      assert (match resolve true m d with
        | Ok qb => bool_decide (src = qb) && bool_decide (is_Some (node_at m src)) | Err _ => false end = false) as ->.
      { destruct (resolve true m d) as [q|]; [|done]. by rewrite bool_decide_false by congruence. }
      apply wp_bind, wp_get.
      assert (readlink m src = None) as ->.
      { unfold readlink, stat. rewrite (resolve_dir m Hwf false src Hs). by destruct Hs as [t ->]. }
      apply wp_bind, wp_eval. unfold stat. rewrite Hrs. destruct Hs as [t ->]. by apply wp_throw. }
    unfold copy2. apply wp_bind, wp_get. destruct Hdst as [Hdst|[Hdst Hr]].
    - rewrite isdir_plain_false by (by left). cbv zeta. apply Hgo.
      rewrite resolve_follow; [congruence|done|done|done|]. intros ?? E. congruence.
    - rewrite isdir_dir by done. cbv zeta. rewrite Hx. by apply Hgo.
  Qed.
End copy.
