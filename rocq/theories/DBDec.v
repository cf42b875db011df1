(** The conditions on histories are decidable (used by the examples). *)
From Coq Require Import QArith Qcanon.
From Verif Require Export DBCollide.
From stdpp Require Import options.

Section dec.
  Context {D : Type}.
  Implicit Types (m : gmap path D) (ps : list path).
  Global Instance parents_ok_dec m ps : Decision (parents_ok m ps).
  Proof.
    refine (cast_if (decide (Forall (λ p, p ≠ [] ∧ (parent p = [] ∨ is_Some (m !! parent p) ∨ parent p ∈ ps)) ps)));
      unfold parents_ok; by rewrite <-Forall_forall.
  Defined.
  Global Instance touches_dec m ps : Decision (touches m ps).
  Proof.
    refine (cast_if (decide (Forall (λ p, Forall (λ c, child_of c p → Exists (λ q, below q p) ps)
      (elements (dom m))) ps))).
    - intros p c Hp Hc Hd. rewrite Forall_forall in f. specialize (f p Hp). rewrite Forall_forall in f.
      specialize (f c). rewrite elem_of_elements in f. specialize (f Hd Hc). by apply Exists_exists in f.
    - intros Ht. apply n. apply Forall_forall. intros p Hp. apply Forall_forall. intros c Hc%elem_of_elements Hch.
      apply Exists_exists. eauto.
  Defined.
  Global Instance batch_distinct_dec H m ps : Decision (batch_distinct H m ps).
  Proof.
    refine (cast_if (decide (Forall (λ p, Forall (λ q, p ∉ dom m → q ∉ dom m → H p [] = H q [] → p = q) ps) ps)));
      unfold batch_distinct.
    - intros p q Hp Hq. rewrite Forall_forall in f. specialize (f p Hp). rewrite Forall_forall in f. by apply f.
    - intros Hb. apply n. apply Forall_forall. intros p Hp. apply Forall_forall. intros q Hq. by apply Hb.
  Defined.
  Global Instance all_known_dec m ps : Decision (∀ p, p ∈ ps → p ∈ dom m).
  Proof. refine (cast_if (decide (Forall (.∈ dom m) ps))); by rewrite <-Forall_forall. Defined.
  Global Instance antichain_dec ps : Decision (∀ p q, p ∈ ps → q ∈ ps → ¬ below p q).
  Proof.
    refine (cast_if (decide (Forall (λ p, Forall (λ q, ¬ below p q) ps) ps))).
    - intros p q Hp Hq. rewrite Forall_forall in f. specialize (f p Hp). rewrite Forall_forall in f. by apply f.
    - intros Hb. apply n. apply Forall_forall. intros p Hp. apply Forall_forall. intros q Hq. by apply Hb.
  Defined.
End dec.
Global Instance lop_ok_dec m o : Decision (lop_ok m o).
Proof. destruct o; simpl; apply _. Defined.
Global Instance lop_keep_dec m o : Decision (lop_keep m o).
Proof. destruct o; simpl; apply _. Defined.
Global Instance lop_coll_dec H m o : Decision (lop_coll H m o).
Proof. destruct o; simpl; apply _. Defined.
Global Instance rop_ok_dec m o : Decision (rop_ok m o).
Proof. destruct o; simpl; apply _. Defined.
Global Instance rop_keep_dec m o : Decision (rop_keep m o).
Proof. destruct o; simpl; apply _. Defined.
Global Instance rop_coll_dec H m o : Decision (rop_coll H m o).
Proof. destruct o; simpl; apply _. Defined.
Global Instance run_ok_dec {S O} (step : S → O → option S) (ok : S → O → Prop)
  `{!∀ s o, Decision (ok s o)} s os : Decision (run_ok step ok s os).
Proof.
  revert s. induction os as [|o os IH]; intros s; simpl; [apply _|].
  destruct (decide (ok s o)) as [Ho|Ho]; [|by right; intros [? _]].
  destruct (step s o) as [s'|].
  - destruct (IH s') as [Hr|Hr].
    + left. split; [done|]. intros ? E. by injection E as <-.
    + right. intros [_ Hn]. by apply Hr, Hn.
  - left. split; [done|]. by intros ? ?.
Defined.
