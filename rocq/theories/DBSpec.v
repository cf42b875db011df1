(** The databases as maps from paths to data: the specification that the
    tables of [DBTables] refine, and the databases used by the model of
    filelogic.py. *)
From Coq Require Import QArith Qcanon.
From Verif Require Export DBTables.
From stdpp Require Import options.

Section spec.
  Context {D : Type}.
  Implicit Types m : gmap path D.

  (** New paths are added; known paths keep their data. *)
  Definition s_insert m (mk : path → D) (paths : list path) : gmap path D :=
    m ∪ list_to_map (map (λ p, (p, mk p)) paths).
  Definition s_upd m (f : D → D) (ps : list path) : gmap path D :=
    foldl (λ m p, alter f p m) m ps.
  Definition s_add m (mk : path → D) (set_dir : D → D) (paths : list path) : gmap path D :=
    s_upd (s_insert m mk paths) set_dir (parents paths).
  (** The data of the immediate children. *)
  Definition s_children m (p : path) : list D :=
    map snd (map_to_list (filter (λ kv, child_of kv.1 p) m)).
  Definition s_recompute m (g : list D → D → D) (ps : list path) : gmap path D :=
    foldl (λ m p, alter (g (s_children m p)) p m) m (ancestry ps).
  (** Everything at and below the given paths goes. *)
  Definition s_rm m (ps : list path) : gmap path D :=
    filter (λ kv, Forall (λ p, ¬ p `prefix_of` kv.1) ps) m.
  (** Everything at and below the root that satisfies the condition. *)
  Definition s_query m (root : option path) (P : D → bool) : gmap path D :=
    filter (λ kv, default [] root `prefix_of` kv.1 ∧ P kv.2 = true) m.
End spec.

(** A new path needs its parent directory: known or in the same batch. *)
Definition parents_ok {D} (m : gmap path D) (paths : list path) : Prop :=
  ∀ p, p ∈ paths → p ≠ [] ∧ (parent p = [] ∨ is_Some (m !! parent p) ∨ parent p ∈ paths).

(** ** Local database operations on maps *)
Definition sl_refresh (m : gmap path ldata) (ps : list path) := s_recompute (s_recompute m g_prio ps) g_local ps.
Definition sl_add (m : gmap path ldata) (files dirs : list path) (prio : Qc) (local : bool) : gmap path ldata :=
  let paths := files ++ dirs in
  sl_refresh (s_add m (λ p, LData (bool_decide (p ∈ dirs)) prio local) (set_ldir true) paths) (parents paths).
Definition sl_max (m : gmap path ldata) : option Qc := max_prio (map snd (map_to_list m)).
Definition sl_add_inflated (m : gmap path ldata) (files dirs : list path) : option (gmap path ldata) :=
  match sl_max m with
  | Some q => Some (sl_add m files dirs q true)
  | None => if bool_decide (files ++ dirs = []) then Some m else None
  end.
Definition sl_update (m : gmap path ldata) (ps : list path) (dir : option bool) (prio : option Qc) (local : option bool) : gmap path ldata :=
  sl_refresh (s_upd (s_upd (s_upd m (opt_apply set_ldir dir) ps) (opt_apply set_prio prio) ps)
                (opt_apply set_local local) ps) (parents ps).
Definition sl_rm (m : gmap path ldata) (ps : list path) : gmap path ldata := sl_refresh (s_rm m ps) (parents ps).
Definition sl_increment (m : gmap path ldata) (ps : list path) (q : Qc) : gmap path ldata :=
  s_recompute (s_upd m (λ d, set_prio (ld_prio d + q)%Qc d) ps) g_prio (parents ps).
Definition sl_adjust (m : gmap path ldata) (q : Qc) : gmap path ldata :=
  (λ d, set_prio (ld_prio d * q)%Qc d) <$> m.
Definition sl_get (m : gmap path ldata) (root : option path) (dir local : option bool) : gmap path ldata :=
  s_query m root (λ d, opt_eqb dir (ld_dir d) && opt_eqb local (ld_local d)).

(** ** Remote database operations on maps *)
Definition sr_add (m : gmap path rdata) (files dirs : list path) (now : Z) : gmap path rdata :=
  s_add m (λ p, RData (bool_decide (p ∈ dirs)) now) (set_rdir true) (files ++ dirs).
Definition sr_update (m : gmap path rdata) (ps : list path) (dir : option bool) (last : option Z) : gmap path rdata :=
  s_upd (s_upd m (opt_apply set_rdir dir) ps) (opt_apply set_last last) ps.
Definition sr_rm (m : gmap path rdata) (ps : list path) : gmap path rdata := s_rm m ps.
Definition sr_get (m : gmap path rdata) (root : option path) (dir : option bool) (min_last : option Z) : gmap path rdata :=
  s_query m root (λ d, opt_eqb dir (rd_dir d)
    && match min_last with None => true | Some z => bool_decide (z < rd_last d)%Z end).

(** * Facts *)
Section facts.
  Context {D : Type}.
  Implicit Types m : gmap path D.

  Lemma s_upd_lookup m f ps p :
    (∀ d, f (f d) = f d) ∨ NoDup ps →
    s_upd m f ps !! p = if bool_decide (p ∈ ps) then f <$> m !! p else m !! p.
  Proof.
    unfold s_upd. intros Hf. revert m. induction ps as [|q ps IH]; intros m; cbn [foldl].
    - rewrite bool_decide_false by apply not_elem_of_nil. done.
    - rewrite IH.
      2:{ destruct Hf as [?|Hn]; [by left|]. right. by inversion Hn. }
      destruct (decide (p = q)) as [->|Hne].
      + rewrite lookup_alter. rewrite (bool_decide_true (q ∈ q :: ps)) by left.
        case_bool_decide as Hq; [|done].
        destruct Hf as [Hf|Hn]; [|by inversion Hn].
        destruct (m !! q); simpl; [by rewrite Hf|done].
      + rewrite lookup_alter_ne by done.
        rewrite (bool_decide_ext (p ∈ q :: ps) (p ∈ ps)); [done|].
        rewrite elem_of_cons. naive_solver.
  Qed.
  Lemma dom_s_upd m f ps : dom (s_upd m f ps) = dom m.
  Proof.
    unfold s_upd. revert m. induction ps as [|q ps IH]; intros m; simpl; [done|].
    rewrite IH. apply dom_alter_L.
  Qed.
  Lemma s_insert_lookup m mk paths p :
    s_insert m mk paths !! p =
      match m !! p with Some d => Some d | None => if bool_decide (p ∈ paths) then Some (mk p) else None end.
  Proof.
    unfold s_insert. destruct (m !! p) as [d|] eqn:E.
    - by apply lookup_union_Some_l.
    - rewrite lookup_union_r by done. case_bool_decide as Hp.
      + induction paths as [|q paths IH]; [by apply elem_of_nil in Hp|]. simpl.
        destruct (decide (p = q)) as [->|Hne]; [by rewrite lookup_insert|].
        rewrite lookup_insert_ne by done. apply IH. set_solver.
      + apply not_elem_of_list_to_map_1. rewrite <-list_fmap_compose. intros Hin.
        apply elem_of_list_fmap in Hin as (q & -> & Hq). by apply Hp.
  Qed.
  Lemma dom_s_insert m mk paths : dom (s_insert m mk paths) = dom m ∪ list_to_set paths.
  Proof.
    apply set_eq. intros p. rewrite elem_of_union, elem_of_list_to_set, !elem_of_dom, s_insert_lookup.
    destruct (m !! p); [naive_solver|]. case_bool_decide; naive_solver.
  Qed.
  Lemma dom_s_add m mk sd paths : dom (s_add m mk sd paths) = dom m ∪ list_to_set paths.
  Proof. unfold s_add. by rewrite dom_s_upd, dom_s_insert. Qed.
  Lemma dom_s_recompute m g ps : dom (s_recompute m g ps) = dom m.
  Proof.
    unfold s_recompute. revert m. induction (ancestry ps) as [|q l IH]; intros m; simpl; [done|].
    rewrite IH. apply dom_alter_L.
  Qed.
  Lemma s_rm_lookup m ps p d :
    s_rm m ps !! p = Some d ↔ m !! p = Some d ∧ Forall (λ q, ¬ q `prefix_of` p) ps.
  Proof. unfold s_rm. by rewrite map_filter_lookup_Some. Qed.
  Lemma elem_of_dom_s_rm m ps p :
    p ∈ dom (s_rm m ps) ↔ p ∈ dom m ∧ Forall (λ q, ¬ q `prefix_of` p) ps.
  Proof.
    rewrite !elem_of_dom. unfold is_Some. setoid_rewrite s_rm_lookup. naive_solver.
  Qed.
  Lemma s_query_lookup m root P p d :
    s_query m root P !! p = Some d ↔
      m !! p = Some d ∧ default [] root `prefix_of` p ∧ P d = true.
  Proof. unfold s_query. rewrite map_filter_lookup_Some. done. Qed.
  Lemma elem_of_parents ps q : q ∈ parents ps ↔ q ≠ [] ∧ ∃ p, p ∈ ps ∧ q = parent p.
  Proof.
    unfold parents. rewrite elem_of_list_In, filter_In, <-elem_of_list_In, elem_of_remove_dups, elem_of_list_fmap.
    rewrite negb_true_iff, bool_decide_eq_false. naive_solver.
  Qed.
  Lemma NoDup_parents ps : NoDup (parents ps).
  Proof.
    unfold parents. assert (NoDup (remove_dups (map parent ps))) as Hn by apply NoDup_remove_dups.
    rewrite NoDup_ListNoDup in *. by apply List.NoDup_filter.
  Qed.
End facts.
