(** Being a state without clashes is decidable (used by the examples). *)
From Coq Require Import QArith Qcanon.
From Verif Require Export MergeAgain SyncEx.
From stdpp Require Import options.

Global Instance opt_ex_dec {A} (o : option A) (P : A → Prop) `{!∀ l, Decision (P l)} : Decision (∃ x, o = Some x ∧ P x).
Proof.
  destruct o as [b|]; [|right; by intros (? & ? & ?)]. destruct (decide (P b)) as [Hb|Hb]; [left; eauto|right; by intros (? & [= <-] & ?)].
Defined.
Global Instance file_ex_dec (o : option node) (P : Z → Prop) `{!∀ l, Decision (P l)} : Decision (∃ c t, o = Some (File c t) ∧ P t).
Proof.
  destruct o as [[c t| |]|]; [|right; by intros (? & ? & ? & ?)..].
  destruct (decide (P t)) as [Hb|Hb]; [left; eauto|right; by intros (? & ? & [= <- <-] & ?)].
Defined.
Global Instance dir_all_dec (o : option node) (P : Prop) `{!Decision P} : Decision (∀ t, o = Some (Dir t) → P).
Proof.
  destruct o as [[| |t]|]; [by left..| |by left].
  destruct (decide P) as [Hb|Hb]; [by left|right; intros Ha; by apply Hb, (Ha t)].
Defined.
Definition is_file_node (n : node) : bool := match n with File _ _ => true | _ => false end.
Section dec.
  Context (C : conf) (m : fs) (ldb : lmap) (rdb : rmap) (last_sync : Z) (X : pset).
  Local Notation l_at := (l_at C m).
  Local Notation r_at := (r_at C m).
  Local Notation known := (Merge.known ldb).
  Local Notation stray := (stray C m ldb X).
  Local Notation new_l := (new_l C m ldb X).
  Local Notation gone_l := (gone_l C m ldb).
  Local Notation gone_r := (gone_r C m ldb).
  Local Notation edited_l := (edited_l C m ldb last_sync).
  Local Notation edited_r := (edited_r C m ldb rdb last_sync).
  Local Notation trashed := (trashed C m ldb).
  Local Notation ldir := (λ p, ld_dir <$> ldb !! p).
  Local Notation rdir := (λ p, rd_dir <$> rdb !! p).
  Global Instance ours_dec p : Decision (ours p).
  Proof using Type. unfold ours. apply _. Defined.
  Global Instance trashed_dec p : Decision (trashed p).
  Proof using Type. unfold Merge.trashed. apply _. Defined.

  (** The paths that matter. *)
  Definition below_of (D k : path) : list path := if decide (D `prefix_of` k) then [drop (length D) k] else [].
  Definition paths : list path :=
    let ks := (map_to_list m).*1 in
    remove_dups (filter (λ p, ¬ zielen_dir `prefix_of` p) ((ks ≫= below_of (c_L C)) ++ (ks ≫= below_of (c_R C)))
      ++ (ks ≫= below_of (c_L C)) ++ (map_to_list ldb).*1 ++ (map_to_list rdb).*1 ++ elements X).
  Lemma below_of_in D p n : m !! (D ++ p) = Some n → p ∈ (map_to_list m).*1 ≫= below_of D.
  Proof using Type.
    intros Hn. apply elem_of_list_bind. exists (D ++ p). split.
    - unfold below_of. rewrite decide_True by by apply prefix_app_r. rewrite drop_app. by left.
    - apply elem_of_list_fmap. exists (D ++ p, n). split; [done|]. by apply elem_of_map_to_list.
  Qed.
  Lemma l_paths p : is_Some (l_at p) → p ∈ paths.
  Proof using Type.
    intros [n Hn]. unfold Merge.l_at in Hn. case_decide; [done|]. apply elem_of_remove_dups. rewrite !elem_of_app. right. left. by eapply below_of_in.
  Qed.
  Lemma r_paths p : is_Some (r_at p) → p ∈ paths.
  Proof using Type.
    intros [n Hn]. unfold Merge.r_at in Hn. case_decide as Hd; [done|]. apply elem_of_remove_dups. rewrite !elem_of_app. left.
    apply elem_of_list_filter. split; [intros ?; apply Hd; by right|]. apply elem_of_app. right. by eapply below_of_in.
  Qed.
  Lemma ldb_paths p : known p → p ∈ paths.
  Proof using Type.
    intros [d Hd]. apply elem_of_remove_dups. rewrite !elem_of_app. right. right. left. apply elem_of_list_fmap. exists (p, d). split; [done|]. by apply elem_of_map_to_list.
  Qed.
  Lemma rdb_paths p : is_Some (rdb !! p) → p ∈ paths.
  Proof using Type.
    intros [d Hd]. apply elem_of_remove_dups. rewrite !elem_of_app. do 3 right. left. apply elem_of_list_fmap. exists (p, d). split; [done|]. by apply elem_of_map_to_list.
  Qed.
  Lemma X_paths p : p ∈ X → p ∈ paths.
  Proof using Type. intros Hp. apply elem_of_remove_dups. rewrite !elem_of_app. do 4 right. by apply elem_of_elements. Qed.

  Definition calm_x_check : Prop :=
    (wf_fs m ∧ dir_at m (c_L C) ∧ dir_at m (c_R C) ∧ c_L C ≠ []) ∧ apart (c_L C) (c_R C)
    ∧ (dir_at m (exclude_dir C) ∧ valid_name (c_id C) ∧ (m !! exclude_file C = None ∨ ∃ c t, m !! exclude_file C = Some (File c t)))
    ∧ dir_at m (trash_dir C)
    ∧ Forall (λ p, zielen_dir `prefix_of` p → l_at p = None) paths
    ∧ Forall (λ p, ∀ b, ldir p = Some b → ours p ∧ (parent p = [] ∨ ldir (parent p) = Some true)) paths
    ∧ Forall (λ p, ∀ b, rdir p = Some b → ours p ∧ (parent p = [] ∨ rdir (parent p) = Some true)) paths
    ∧ Forall (λ p, ∀ b, ldir p = Some b → ∀ n, l_at p = Some n → is_Dir n = b) paths
    ∧ Forall (λ p, ∀ b, ldir p = Some b → ∀ n, r_at p = Some n → is_Dir n = b) paths
    ∧ Forall (λ p, ∀ b, rdir p = Some b → ∀ n, r_at p = Some n → is_Dir n = b) paths
    ∧ Forall (λ p, ∀ b, ldir p = Some b → ∀ b', rdir p = Some b' → b = b') paths
    ∧ Forall (λ p, known p → is_Some (r_at p) → is_Some (rdb !! p)) paths
    ∧ Forall (λ p, is_Some (rdb !! p) → known p ∨ is_Some (r_at p)) paths
    ∧ Forall (λ p, ∀ t k, r_at p ≠ Some (Link t k)) paths
    ∧ Forall (λ p, ∀ t k, l_at p = Some (Link t k) → (known p ∧ t = abs_path (c_R C ++ p)) ∨ stray p) paths
    ∧ Forall (λ p, p ∈ X → is_Some (l_at p) ∧ (known p → is_Some (r_at p))) paths
    ∧ Forall (λ p, stray p → r_at p = None) paths
    ∧ Forall (λ p, stray p → Forall (λ i, let q := take i p in q ≠ p → q ≠ [] → stray q ∨ (known q ∧ is_Some (r_at q))) (seq 0 (S (length p)))) paths
    ∧ Forall (λ q, stray q → Forall (λ p, q `prefix_of` p → is_Some (l_at p) → stray p) paths) paths
    ∧ Forall (λ p, stray p → last (parent p) = last p → ∀ t k, l_at p ≠ Some (Link t k)) paths
    ∧ Forall (λ p, ¬ known p → ∀ n, l_at p = Some n → ∀ n', r_at p = Some n' → is_Dir n = is_Dir n') paths
    ∧ Forall (λ p, gone_l p ∨ gone_r p → ¬ edited_l p ∧ ¬ edited_r p) paths
    ∧ Forall (λ p, gone_l p → Forall (λ q, p `prefix_of` q → is_Some (r_at q) → known q) paths) paths
    ∧ Forall (λ p, gone_r p → Forall (λ q, p `prefix_of` q → is_Some (l_at q) → known q) paths) paths
    ∧ Forall (λ p, gone_l p → is_Some (rdb !! p)) paths
    ∧ Forall (λ p, new_l p → ∀ t, l_at p = Some (Dir t) → r_at p = None → Exists (λ q, q ≠ [] ∧ parent q = p ∧ is_Some (l_at q)) paths ∨ new_l (parent p)) paths
    ∧ (c_inflate C = true → Exists new_l paths → Exists (λ p, ldir p = Some false ∧ is_Some (l_at p) ∧ is_Some (r_at p)) paths)
    ∧ Forall (λ p, trashed p → Forall (λ q, trashed q → last p = last q → p = q) paths) paths
    ∧ Forall (λ p, trashed p → ∀ x, last p = Some x → m !! (trash_dir C ++ [x]) = None) paths
    ∧ Forall (λ kn, parent kn.1 = trash_dir C → ∀ t k, Some kn.2 ≠ Some (Link t k)) (map_to_list m)
    ∧ (Exists (λ p, p ∈ X ∧ known p) paths → Forall (λ kn, parent kn.1 = exclude_dir C → is_file_node kn.2 = true) (map_to_list m)).
  Global Instance calm_x_check_dec : Decision calm_x_check.
  Proof using Type. unfold calm_x_check. apply _. Defined.
  Definition calm_check : Prop := calm_x_check ∧ Forall (λ p, p ∈ X → ¬ known p) paths.
  Global Instance calm_check_dec : Decision calm_check.
  Proof using Type. unfold calm_check. apply _. Defined.
  Definition clean_x_check : Prop := calm_x_check ∧ Forall (λ p, ¬ clash C m ldb rdb last_sync p) paths.
  Global Instance clean_x_check_dec : Decision clean_x_check.
  Proof using Type. unfold clean_x_check. apply _. Defined.
  Definition clean_check : Prop := calm_check ∧ Forall (λ p, ¬ clash C m ldb rdb last_sync p) paths.
  Global Instance clean_check_dec : Decision clean_check.
  Proof using Type. unfold clean_check. apply _. Defined.
  Lemma calm_x_checked : calm_x_check → calm_x C m ldb rdb last_sync X.
  Proof using Type.
    unfold calm_x_check. rewrite !Forall_forall.
    intros ((M1 & M2 & M3 & M4) & H2 & (U1 & U2 & U3) & H4 & H5 & H6 & H7 & H8 & H9 & H9' & H10 & H11 & H12 & H13 & H14 & H15 & H16 & H17 & H18 & H19 & H20 & H22 & H23 & H24 & H25 & H26 & H27 & H28 & H29 & H30 & H31).
    assert (∀ A (f : A → bool) (o : option A) b, f <$> o = Some b → is_Some o) as Hfm.
    { intros A f [a|] b; [by eexists|done]. }
    split; try done.
    - intros p Hp. destruct (l_at p) eqn:E; [|done]. rewrite <- E. apply H5; [|done]. apply l_paths. by eexists.
    - intros p b Hb. eapply H6; [|done]. by eapply ldb_paths, Hfm.
    - intros p b Hb. eapply H7; [|done]. by eapply rdb_paths, Hfm.
    - intros p b n Hb Hn. eapply H8; [|done..]. by eapply ldb_paths, Hfm.
    - intros p b n [Hb|Hb] Hn; [eapply (H9 p); [by eapply ldb_paths, Hfm|done..]|eapply (H9' p); [by eapply rdb_paths, Hfm|done..]].
    - intros p b b' Hb Hb'. eapply H10; [|done..]. by eapply ldb_paths, Hfm.
    - intros p Hk. apply H11; [|done]. by apply ldb_paths.
    - intros p Hp. apply H12; [|done]. by apply rdb_paths.
    - intros p t k E. eapply H13; [|done]. apply r_paths. by eexists.
    - intros p t k E. eapply H14; [|done]. apply l_paths. by eexists.
    - intros p Hp. apply H15; [|done]. by apply X_paths.
    - intros p x n Hp Hk E. rewrite Exists_exists in H31. apply elem_of_map_to_list in E.
      assert (is_file_node n = true) as Hf. { apply (H31 ltac:(exists p; split; [by apply X_paths|done]) _ E). cbn [fst]. by rewrite parent_snoc. }
      destruct n; try done; eauto.
    - intros p Hp. apply H16; [|done]. apply l_paths, Hp.
    - intros p q Hp [r ->] Hne Hq0. specialize (H17 (q ++ r)). rewrite Forall_forall in H17.
      specialize (H17 ltac:(apply l_paths, Hp) Hp (length q)). cbv zeta in H17. rewrite take_app in H17.
      apply H17; [|done..]. apply elem_of_seq. rewrite app_length. lia.
    - intros p q Hq Hqp Hl. specialize (H18 q ltac:(apply l_paths, Hq) Hq). rewrite Forall_forall in H18. apply H18; [|done..]. by apply l_paths.
    - intros p x t k Hp Hx Hs. apply H19; [|done|]; [apply l_paths, Hs|]. by rewrite parent_snoc, last_snoc.
    - intros p n n' Hk Hn Hn'. eapply H20; [|done..]. apply l_paths. by eexists.
    - intros p Hg. apply H22; [|done]. apply ldb_paths. by destruct Hg as [[? ?]|[? ?]].
    - intros p q Hg Hpq Hr. specialize (H23 p ltac:(apply ldb_paths, Hg) Hg). rewrite Forall_forall in H23. apply H23; [|done..]. by apply r_paths.
    - intros p q Hg Hpq Hr. specialize (H24 p ltac:(apply ldb_paths, Hg) Hg). rewrite Forall_forall in H24. apply H24; [|done..]. by apply l_paths.
    - intros p Hg. apply H25; [|done]. apply ldb_paths, Hg.
    - intros p t Hn El Er. destruct (H26 p ltac:(apply l_paths, Hn) Hn t El Er) as [Hx|?]; [left|by right].
      apply Exists_exists in Hx as (q & _ & Hq0 & <- & Hl). destruct (exists_last Hq0) as (q' & x & ->). exists x. by rewrite parent_snoc.
    - intros Hi [p Hp]. specialize (H27 Hi). rewrite !Exists_exists in H27. destruct H27 as (q & _ & Hq); [|by exists q].
      exists p. split; [|done]. apply l_paths, Hp.
    - intros p q Hp Hq. specialize (H28 p ltac:(apply ldb_paths, Hp) Hp). rewrite Forall_forall in H28. apply H28; [|done]. apply ldb_paths, Hq.
    - intros p x Hp. apply H29; [|done]. apply ldb_paths, Hp.
    - intros x t k E. apply elem_of_map_to_list in E. specialize (H30 _ E). cbn [fst snd] in H30. rewrite parent_snoc in H30. by apply (H30 eq_refl t k).
  Qed.
  Lemma calm_checked : calm_check → calm C m ldb rdb last_sync X.
  Proof using Type.
    intros [H Hu]. split; [by apply calm_x_checked|]. rewrite Forall_forall in Hu. intros p Hp. apply Hu; [|done]. by apply X_paths.
  Qed.
  Lemma clean_x_checked : clean_x_check → clean_x C m ldb rdb last_sync X.
  Proof using Type.
    unfold clean_x_check. rewrite (Forall_forall (λ p, ¬ clash C m ldb rdb last_sync p)). intros [Hc Hn]. split; [by apply calm_x_checked|].
    intros p Hp. apply (Hn p); [|done]. destruct Hp as (c & t & c' & t' & El & _). apply l_paths. by eexists.
  Qed.
  Lemma clean_checked : clean_check → clean C m ldb rdb last_sync X.
  Proof using Type.
    unfold clean_check. rewrite (Forall_forall (λ p, ¬ clash C m ldb rdb last_sync p)). intros [Hc Hn]. apply clean_of; [by apply calm_checked|].
    intros p Hp. apply (Hn p); [|done]. destruct Hp as (c & t & c' & t' & El & _). apply l_paths. by eexists.
  Qed.
End dec.
