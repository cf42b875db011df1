(** The conditions on file systems are decidable (used by the examples). *)
From Verif Require Export SymlinkProofs.
From stdpp Require Import options.

Global Instance node_eq_dec : EqDecision node.
Proof. solve_decision. Defined.
Global Instance dir_at_dec m p : Decision (dir_at m p).
Proof.
  unfold dir_at. destruct (node_at m p) as [[| |t]|].
  - right. by intros [? ?].
  - right. by intros [? ?].
  - left. by exists t.
  - right. by intros [? ?].
Defined.
Global Instance wf_fs_dec m : Decision (wf_fs m).
Proof.
  refine (cast_if (decide (map_Forall (λ p n, p ≠ [] ∧ valid_comps p ∧ dir_at m (parent p)) m))); done.
Defined.
Global Instance apart_dec S D : Decision (apart S D).
Proof. unfold apart. apply _. Defined.
Global Instance is_file_dec (o : option node) : Decision (∃ c t, o = Some (File c t)).
Proof.
  destruct o as [[c t| |]|]; [left; by exists c, t|right; by intros (? & ? & ?)..].
Defined.
Global Instance is_link_to_dec (o : option node) a : Decision (∃ k, o = Some (Link a k)).
Proof.
  destruct o as [[|b k|]|]; [right; by intros (? & ?)| |right; by intros (? & ?)..].
  destruct (decide (a = b)) as [->|]; [left; by exists k|right; by intros (? & [= <- <-])].
Defined.
Global Instance not_link_dec (o : option node) : Decision (∀ l k, o ≠ Some (Link l k)).
Proof.
  destruct o as [[|b k|]|]; [by left| |by left..]. right. intros H. by apply (H b k).
Defined.
Global Instance link_then_dec (o : option node) (P : str → Prop) `{!∀ l, Decision (P l)} :
  Decision (∀ l k, o = Some (Link l k) → P l).
Proof.
  destruct o as [[|b k|]|]; [by left| |by left..]. destruct (decide (P b)) as [Hb|Hb].
  - left. by intros l k' [= <- <-].
  - right. intros H'. apply Hb. by apply (H' b k).
Defined.
Global Instance opt_all_dec {A} (o : option A) (P : A → Prop) `{!∀ l, Decision (P l)} :
  Decision (∀ x, o = Some x → P x).
Proof.
  destruct o as [b|]; [|by left]. destruct (decide (P b)) as [Hb|Hb].
  - left. by intros l [= <-].
  - right. intros H'. apply Hb. by apply H'.
Defined.
Global Instance compat_dec S D m p : Decision (compat S D m (λ _, True) p).
Proof. unfold compat. destruct (m !! (S ++ p)) as [[]|]; apply _. Defined.
Global Instance plain_dec m p : Decision (plain m p).
Proof.
  unfold plain. destruct (stat true m p) as [n|e].
  - destruct (decide (is_Dir n = false)); [left; eauto|right; by intros (? & [= <-] & ?)].
  - right. by intros (? & ? & ?).
Defined.
Global Instance requested_dec m S files : Decision (requested m S files).
Proof.
  destruct files as [fl|]; [|by left]. simpl.
  refine (cast_if (decide (Forall (λ p, dir_at m (S ++ p) ∨ (is_Some (m !! (S ++ p)) ∧ ¬ dir_at m (S ++ p) ∧ plain m (S ++ p))) fl)));
    by rewrite <-Forall_forall.
Defined.

(** [transferable] by computation, for a request without exclusions. *)
Definition prefixes (p : path) : list path := (λ i, take i p) <$> seq 1 (length p - 1).
Lemma elem_of_prefixes q p : q `prefix_of` p → q ≠ p → q ≠ [] → q ∈ prefixes p.
Proof.
  intros [k ->] Hne Hq. unfold prefixes. apply elem_of_list_fmap. exists (length q). split; [by rewrite take_app|].
  apply elem_of_seq. rewrite app_length. destruct k; [by rewrite app_nil_r in Hne|]. destruct q; [done|]. simpl. lia.
Qed.
Definition transfer_check (m : fs) (S D : path) (files : option (list path)) : Prop :=
  wf_fs m ∧ apart S D ∧ dir_at m S ∧ dir_at m D ∧ requested m S files ∧
  match to_transfer m S files with
  | Ok l => Forall (λ q, compat S D m (λ _, True) q ∧ Forall (λ p, m !! (D ++ p) = None ∨ dir_at m (D ++ p)) (prefixes q)) l
  | Err _ => False
  end.
Global Instance transfer_check_dec m S D files : Decision (transfer_check m S D files).
Proof. unfold transfer_check. destruct (to_transfer m S files); apply _. Defined.
Lemma transfer_check_ok rm m S D files : transfer_check m S D files → transferable rm m S D files ∅.
Proof.
  intros (Hwf & Ha & Hs & Hd & Hr & Hl). destruct (to_transfer_spec m S files Hwf Hs Hr) as (l & El & Hin).
  rewrite El in Hl. rewrite Forall_forall in Hl. split; [done..| | |].
  - intros q Hq. apply Hin, Hl in Hq. by eapply compat_mono; [|apply Hq].
  - intros q p Hq H1 H2 H3. apply Hin, Hl in Hq as [_ Hq]. rewrite Forall_forall in Hq. apply Hq. by apply elem_of_prefixes.
  - set_solver.
Qed.
Global Instance linkable_dec D files dirs ow m : Decision (linkable D files dirs ow m).
Proof.
  refine (cast_if (decide (wf_fs m ∧ dir_at m D ∧
    Forall (λ q, (q ≠ [] ∧ valid_comps q) ∧
      Forall (λ r, dir_at m (D ++ r) ∨ (m !! (D ++ r) = None ∧ r ∈ dirs)) (prefixes q) ∧
      (ow = true → q ∈ files → q ∉ dirs → ¬ dir_at m (D ++ q))) (elements (dirs ∪ files))))).
  - destruct a as (Hwf & Hd & Hf). rewrite Forall_forall in Hf. setoid_rewrite elem_of_elements in Hf. split; [done|done| | |].
    + intros q Hq. by apply Hf.
    + intros q r Hq H1 H2 H3. destruct (Hf q Hq) as (_ & H & _). rewrite Forall_forall in H. apply H. by apply elem_of_prefixes.
    + intros Ho q Hq Hqd. apply Hf; [set_solver|done..].
  - intros [H1 H2 H3 H4 H5]. apply n. split; [done|]. split; [done|]. apply Forall_forall. intros q Hq%elem_of_elements.
    split; [by apply H3|]. split; [|intros; by apply H5]. apply Forall_forall. intros r Hr.
    unfold prefixes in Hr. apply elem_of_list_fmap in Hr as (i & -> & Hi%elem_of_seq).
    apply (H4 q); [done|exists (drop i q); by rewrite take_drop| |].
    + intros E. apply (f_equal length) in E. rewrite take_length in E. lia.
    + intros E. apply (f_equal length) in E. rewrite take_length in E. simpl in E. lia.
Defined.
