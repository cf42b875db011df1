(** /repo/zielen/filelogic.py 54-161, class [PathsDiff]. *)
From Verif Require Export Str.
From stdpp Require Import options.

(** A Python set of pairs is a list used up to membership; [None] is [None]. *)
Definition pairs := list (option str * option str).

Inductive pd_op :=
| PdRm (paths : list str)
| PdAdd (paths : list str)
| PdRename (new_pairs : list (str * str)).

(** filelogic.py 79-80, [__init__] *)
Definition pd_init (starting : list str) : pairs := map (λ p, (Some p, Some p)) starting.

(** filelogic.py 82-92, [rm] *)
Definition pd_rm1 (rm_path : str) (pp : pairs) : pairs :=
  map (λ '(i, r), if bool_decide (r = Some rm_path) then (i, None) else (i, r)) pp.
Definition pd_rm (paths : list str) (pp : pairs) : pairs :=
  fold_left (λ pp p, pd_rm1 p pp) paths pp.

(** filelogic.py 94-101, [add] *)
Definition pd_add (paths : list str) (pp : pairs) : pairs :=
  pp ++ map (λ p, (None, Some p)) paths.

(** filelogic.py 103-115, [rename] *)
Definition pd_rename1 (old new : str) (pp : pairs) : pairs :=
  map (λ '(i, r), if bool_decide (i = Some old) then (i, Some new) else (i, r)) pp.
Definition pd_rename (new_pairs : list (str * str)) (pp : pairs) : pairs :=
  fold_left (λ pp '(o, n), pd_rename1 o n pp) new_pairs pp.

Definition pd_step (pp : pairs) (o : pd_op) : pairs :=
  match o with
  | PdRm ps => pd_rm ps pp
  | PdAdd ps => pd_add ps pp
  | PdRename ps => pd_rename ps pp
  end.
Definition pd_run (starting : list str) (ops : list pd_op) : pairs :=
  fold_left pd_step ops (pd_init starting).

(** Truth value of a path or [None] in a condition. *)
Definition truthy (x : option str) : option str :=
  match x with Some [] => None | _ => x end.

(** filelogic.py 117-126, [init_paths] *)
Definition init_paths (pp : pairs) : list str := omap (λ '(i, r), truthy i) pp.
(** filelogic.py 128-137, [res_paths] *)
Definition res_paths (pp : pairs) : list str := omap (λ '(i, r), truthy r) pp.
(** filelogic.py 139-150, [mod_paths] *)
Definition mod_paths (pp : pairs) : list (str * str) :=
  omap (λ '(i, r), match truthy i, truthy r with
                   | Some a, Some b => if bool_decide (a = b) then None else Some (a, b)
                   | _, _ => None
                   end) pp.
(** filelogic.py 152-161, [__or__] *)
Definition pd_or (a b : pairs) : pairs := a ++ b.

(** * Specification: what the operations do to one path *)

(** The current name of the initial path [i] after one operation. *)
Definition name_rm (ps : list str) (cur : option str) : option str :=
  match cur with Some n => if bool_decide (n ∈ ps) then None else cur | None => None end.
Definition name_rename (i : str) (ps : list (str * str)) (cur : option str) : option str :=
  (* the last renaming of [i] in the batch wins *)
  match List.find (λ '(o, _), bool_decide (o = i)) (rev ps) with
  | Some (_, n) => Some n
  | None => cur
  end.
Definition name_step (i : str) (cur : option str) (o : pd_op) : option str :=
  match o with
  | PdRm ps => name_rm ps cur
  | PdAdd _ => cur
  | PdRename ps => name_rename i ps cur
  end.
(** The current name of the initial path [i] after a history. *)
Definition current_name (ops : list pd_op) (i : str) : option str :=
  fold_left (name_step i) ops (Some i).

(** [p] was added and not removed since. *)
Inductive added : list pd_op → str → Prop :=
| added_now ops ps p : p ∈ ps → added (ops ++ [PdAdd ps]) p
| added_keep ops o p :
    added ops p → (∀ ps, o = PdRm ps → p ∉ ps) → added (ops ++ [o]) p.

(** Paths are nonempty strings. *)
Definition op_ok (o : pd_op) : Prop :=
  match o with
  | PdRm _ => True
  | PdAdd ps => [] ∉ ps
  | PdRename ps => [] ∉ map snd ps
  end.

(** * Proofs *)

Definition tok := (option str * option str)%type.

(** Every element of the list evolves on its own. *)
Definition tok_rm (ps : list str) (t : tok) : tok :=
  (t.1, name_rm ps t.2).
Definition tok_rename (ps : list (str * str)) (t : tok) : tok :=
  match t.1 with Some i => (t.1, name_rename i ps t.2) | None => t end.

Lemma pd_rm_map ps pp : pd_rm ps pp = map (tok_rm ps) pp.
Proof.
  revert pp. induction ps as [|p ps IH]; intros pp; simpl.
  - unfold pd_rm. simpl. symmetry. erewrite map_ext; [apply map_id|].
    by intros [i [r|]].
  - unfold pd_rm in *. simpl. rewrite IH. unfold pd_rm1. rewrite map_map. apply map_ext.
    intros [i [r|]]; unfold tok_rm; simpl.
    + case_bool_decide as E.
      * injection E as ->. simpl. by rewrite bool_decide_true by left.
      * simpl. assert (r ≠ p) by congruence. rewrite (bool_decide_ext (r ∈ p :: ps) (r ∈ ps)); [done|].
        rewrite elem_of_cons. naive_solver.
    + done.
Qed.

Lemma find_app' {A} (f : A → bool) l1 l2 :
  List.find f (l1 ++ l2) = match List.find f l1 with Some x => Some x | None => List.find f l2 end.
Proof. induction l1 as [|x l IH]; simpl; [done|]. by destruct (f x). Qed.

Lemma pd_rename_map ps pp : pd_rename ps pp = map (tok_rename ps) pp.
Proof.
  revert pp. induction ps as [|[o n] ps IH]; intros pp; simpl.
  - unfold pd_rename. simpl. symmetry. erewrite map_ext; [apply map_id|]. by intros [[i|] r].
  - unfold pd_rename in *. simpl. rewrite IH. unfold pd_rename1. rewrite map_map. apply map_ext.
    intros [[i|] r]; simpl; [|done].
    unfold tok_rename, name_rename. simpl. rewrite find_app'. simpl.
    case_bool_decide as E.
    + injection E as ->. simpl. rewrite bool_decide_true by done. by destruct (List.find _ (rev ps)) as [[??]|].
    + simpl. rewrite (bool_decide_false (o = i)) by congruence.
      by destruct (List.find _ (rev ps)) as [[??]|].
Qed.

(** Shape of the list after a history: first the initial paths with their
    current names, then tokens without an initial path. *)
Lemma pd_run_shape starting ops :
  ∃ rest, pd_run starting ops = map (λ i, (Some i, current_name ops i)) starting ++ rest
    ∧ Forall (λ t, t.1 = None) rest
    ∧ ∀ p, (None, Some p) ∈ rest ↔ added ops p.
Proof.
  unfold pd_run, current_name. induction ops as [|o ops IH] using rev_ind.
  - exists []. simpl. rewrite app_nil_r. split; [done|]. split; [constructor|].
    intros p. split; [by intros ?%elem_of_nil|]. intros H. inversion H; by destruct ops.
  - destruct IH as (rest & E & Hr & Ha). rewrite fold_left_app. simpl. rewrite E.
    destruct o as [ps|ps|ps]; simpl.
    + exists (map (tok_rm ps) rest). split; [|split].
      * rewrite pd_rm_map, map_app, map_map. f_equal. apply map_ext. intros i.
        rewrite fold_left_app. done.
      * apply Forall_map. eapply Forall_impl; [exact Hr|]. by intros [? ?].
      * intros p. rewrite elem_of_list_fmap. split.
        -- intros ([i r] & Et & Hin). unfold tok_rm in Et. simpl in Et.
           destruct r as [r|]; [|done]. simpl in Et. case_bool_decide as Hd; [done|].
           simplify_eq. constructor; [by apply Ha|]. intros ps' [= <-]. done.
        -- intros H. inversion H as [? ps' ? Hp Heq|? o' ? Hp Hk Heq].
           { apply app_inj_tail in Heq as [_ ?]. done. }
           apply app_inj_tail in Heq as [-> ->]. subst. exists (None, Some p).
           split; [|by apply Ha]. unfold tok_rm. simpl. by rewrite bool_decide_false by by apply Hk.
    + exists (rest ++ map (λ p, (None, Some p)) ps). split; [|split].
      * unfold pd_add. rewrite <-app_assoc. f_equal. apply map_ext. intros i.
        rewrite fold_left_app. done.
      * apply Forall_app. split; [done|]. apply Forall_map. apply Forall_true. done.
      * intros p. rewrite elem_of_app, Ha, elem_of_list_fmap. split.
        -- intros [H|(q & [= ->] & Hq)]; [by constructor|by constructor].
        -- intros H. inversion H as [? ps' ? Hp Heq|? o' ? Hp Hk Heq].
           ++ apply app_inj_tail in Heq as [_ [= ->]]. right. by exists p.
           ++ apply app_inj_tail in Heq as [-> ->]. by left.
    + exists (map (tok_rename ps) rest). split; [|split].
      * rewrite pd_rename_map, map_app, map_map. f_equal. apply map_ext. intros i.
        rewrite fold_left_app. done.
      * apply Forall_map. eapply Forall_impl; [exact Hr|]. intros [? ?]; simpl. by intros ->.
      * assert (map (tok_rename ps) rest = rest) as ->.
        { clear -Hr. induction Hr as [|[i r] rest Ht _ IH]; simpl; [done|]. simpl in Ht. subst.
          by rewrite IH. }
        intros p. rewrite Ha. split; [by constructor|].
        intros H. inversion H as [? ps' ? Hp Heq|? o' ? Hp Hk Heq].
        { by apply app_inj_tail in Heq as [_ ?]. }
        by apply app_inj_tail in Heq as [-> ->].
Qed.

Lemma find_In {A} (f : A → bool) l x : List.find f l = Some x → x ∈ l.
Proof. intros H. apply find_some in H as [H _]. by apply elem_of_list_In. Qed.

Lemma current_name_nonempty ops (i : str) :
  Forall op_ok ops → i ≠ [] → current_name ops i ≠ Some [].
Proof.
  intros Hops Hi. unfold current_name. induction ops as [|o ops IH] using rev_ind; simpl; [congruence|].
  apply Forall_app in Hops as [Hops Ho]. inversion_clear Ho as [|? ? Ho' _].
  specialize (IH Hops). rewrite fold_left_app. cbn [fold_left].
  destruct (fold_left _ ops _) as [n|]; destruct o as [ps|ps|ps]; cbn [name_step name_rm]; try done.
  - case_bool_decide; done.
  - unfold name_rename. destruct (List.find _ _) as [[o n']|] eqn:E; [|done].
    intros [= ->]. apply find_In in E. simpl in Ho'. apply Ho'.
    apply elem_of_list_fmap. exists (o, []). split; [done|].
    apply elem_of_list_In, in_rev, elem_of_list_In. done.
  - unfold name_rename. destruct (List.find _ _) as [[o n']|] eqn:E; [|done].
    intros [= ->]. apply find_In in E. simpl in Ho'. apply Ho'.
    apply elem_of_list_fmap. exists (o, []). split; [done|].
    apply elem_of_list_In, in_rev, elem_of_list_In. done.
Qed.

Lemma added_nonempty ops p : Forall op_ok ops → added ops p → p ≠ [].
Proof.
  intros Hok. induction 1 as [ops ps p Hp|ops o p _ IH _].
  - apply Forall_app in Hok as [_ Ho]. inversion_clear Ho as [|? ? Ho' _]. simpl in Ho'.
    by intros ->.
  - apply Forall_app in Hok as [? _]. auto.
Qed.

Lemma truthy_Some x p : truthy x = Some p ↔ x = Some p ∧ p ≠ [].
Proof. destruct x as [[|c x]|]; simpl; split; naive_solver. Qed.

Lemma pd_init_paths starting ops p :
  [] ∉ starting → p ∈ init_paths (pd_run starting ops) ↔ p ∈ starting.
Proof.
  intros Hs. destruct (pd_run_shape starting ops) as (rest & -> & Hr & _).
  unfold init_paths. rewrite elem_of_list_omap. split.
  - intros ([i r] & Hin & Ht). apply truthy_Some in Ht as [-> _].
    apply elem_of_app in Hin as [Hin|Hin].
    + apply elem_of_list_fmap in Hin as (j & [= -> _] & Hj). done.
    + rewrite Forall_forall in Hr. by apply Hr in Hin.
  - intros Hp. exists (Some p, current_name ops p). split.
    + apply elem_of_app. left. apply elem_of_list_fmap. by exists p.
    + apply truthy_Some. split; [done|]. by intros ->.
Qed.

Lemma pd_res_paths starting ops p :
  [] ∉ starting → Forall op_ok ops →
  p ∈ res_paths (pd_run starting ops) ↔
    (∃ i, i ∈ starting ∧ current_name ops i = Some p) ∨ added ops p.
Proof.
  intros Hs Hok. destruct (pd_run_shape starting ops) as (rest & -> & Hr & Ha).
  unfold res_paths. rewrite elem_of_list_omap. split.
  - intros ([i r] & Hin & Ht). apply truthy_Some in Ht as [-> _].
    apply elem_of_app in Hin as [Hin|Hin].
    + apply elem_of_list_fmap in Hin as (j & [= -> Hj'] & Hj). left. by exists j.
    + right. apply Ha. rewrite Forall_forall in Hr. pose proof (Hr _ Hin) as Hi. simpl in Hi. by subst.
  - intros [(i & Hi & Hc)|H].
    + exists (Some i, Some p). split.
      * apply elem_of_app. left. apply elem_of_list_fmap. exists i. by rewrite Hc.
      * apply truthy_Some. split; [done|]. intros ->.
        eapply current_name_nonempty; [exact Hok| |exact Hc]. by intros ->.
    + exists (None, Some p). split; [apply elem_of_app; right; by apply Ha|].
      apply truthy_Some. split; [done|]. by eapply added_nonempty.
Qed.

Lemma pd_mod_paths starting ops a b :
  [] ∉ starting → Forall op_ok ops →
  (a, b) ∈ mod_paths (pd_run starting ops) ↔
    a ∈ starting ∧ current_name ops a = Some b ∧ a ≠ b.
Proof.
  intros Hs Hok. destruct (pd_run_shape starting ops) as (rest & -> & Hr & Ha).
  unfold mod_paths. rewrite elem_of_list_omap. split.
  - intros ([i r] & Hin & Ht).
    destruct (truthy i) as [i'|] eqn:Ei; [|done]. destruct (truthy r) as [r'|] eqn:Er; [|done].
    apply truthy_Some in Ei as [-> _]. apply truthy_Some in Er as [-> _].
    case_bool_decide as E; [done|]. injection Ht as -> ->.
    apply elem_of_app in Hin as [Hin|Hin].
    + apply elem_of_list_fmap in Hin as (j & [= -> Hj'] & Hj). done.
    + rewrite Forall_forall in Hr. by apply Hr in Hin.
  - intros (Hi & Hc & Hne). exists (Some a, Some b). split.
    + apply elem_of_app. left. apply elem_of_list_fmap. exists a. by rewrite Hc.
    + assert (truthy (Some a) = Some a) as -> by (apply truthy_Some; split; [done|by intros ->]).
      assert (truthy (Some b) = Some b) as ->.
      { apply truthy_Some. split; [done|]. intros ->.
        eapply current_name_nonempty; [exact Hok| |exact Hc]. by intros ->. }
      by rewrite bool_decide_false.
Qed.

(** The resultant set, step by step. *)
Lemma pd_res_rm pp ps p : p ∈ res_paths (pd_rm ps pp) ↔ p ∈ res_paths pp ∧ p ∉ ps.
Proof.
  rewrite pd_rm_map. unfold res_paths. rewrite !elem_of_list_omap. setoid_rewrite elem_of_list_fmap.
  split.
  - intros ([i r] & ([i' r'] & E & Hin) & Ht). unfold tok_rm in E. simpl in E. injection E as -> ->.
    apply truthy_Some in Ht as [Ht Hne]. destruct r' as [r'|]; [|done]. simpl in Ht.
    case_bool_decide; [done|]. injection Ht as ->. split; [|done].
    exists (i', Some p). split; [done|]. by apply truthy_Some.
  - intros [([i r] & Hin & Ht) Hp]. apply truthy_Some in Ht as [-> Hne].
    exists (i, Some p). split; [|by apply truthy_Some]. exists (i, Some p). split; [|done].
    unfold tok_rm. simpl. by rewrite bool_decide_false.
Qed.
Lemma pd_res_add pp ps p : [] ∉ ps → p ∈ res_paths (pd_add ps pp) ↔ p ∈ res_paths pp ∨ p ∈ ps.
Proof.
  intros Hne. unfold pd_add, res_paths. rewrite !elem_of_list_omap. setoid_rewrite elem_of_app.
  setoid_rewrite elem_of_list_fmap. split.
  - intros ([i r] & [Hin|(q & E & Hq)] & Ht); [left; by exists (i, r)|].
    injection E as -> ->. apply truthy_Some in Ht as [[= ->] _]. by right.
  - intros [([i r] & Hin & Ht)|Hp]; [exists (i, r); split; [by left|done]|].
    exists (None, Some p). split; [right; by exists p|]. apply truthy_Some. split; [done|by intros ->].
Qed.
