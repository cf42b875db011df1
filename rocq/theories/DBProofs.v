(** Histories of database operations; invariants of the directory rows. *)
From Coq Require Import QArith Qcanon.
From Verif Require Export DBRefine.
From stdpp Require Import options.

(** ** Recomputation from the children *)
Section recompute.
  Context {D : Type}.
  Implicit Types (m : gmap path D) (p q : path) (ps : list path).

  Lemma s_children_ext m m' p :
    (∀ q, child_of q p → m !! q = m' !! q) → s_children m p = s_children m' p.
  Proof.
    intros Hq. unfold s_children. do 2 f_equal. apply map_eq. intros q. apply option_eq. intros d.
    rewrite !map_filter_lookup_Some. simpl. split; intros [E Hc]; (split; [|done]).
    - by rewrite <-Hq. 
    - by rewrite Hq.
  Qed.
  Lemma elem_of_s_children m p d : d ∈ s_children m p ↔ ∃ q, child_of q p ∧ m !! q = Some d.
  Proof.
    unfold s_children. rewrite elem_of_list_fmap. split.
    - intros ([q d'] & -> & Hin). apply elem_of_map_to_list, map_filter_lookup_Some in Hin as [? ?]. eauto.
    - intros (q & Hc & Hq). exists (q, d). split; [done|]. by apply elem_of_map_to_list, map_filter_lookup_Some.
  Qed.
  Lemma s_children_nil m p : s_children m p = [] ↔ ∀ q, child_of q p → m !! q = None.
  Proof.
    split.
    - intros E q Hc. destruct (m !! q) as [d|] eqn:Eq; [|done].
      assert (d ∈ s_children m p) as Hd by (apply elem_of_s_children; eauto). rewrite E in Hd. by apply elem_of_nil in Hd.
    - intros Hn. destruct (s_children m p) as [|d l] eqn:E; [done|].
      assert (d ∈ s_children m p) as Hd by (rewrite E; left).
      apply elem_of_s_children in Hd as (q & Hc & Hq). rewrite Hn in Hq by done. done.
  Qed.

  Lemma foldl_recompute_spec (g : list D → D → D) l : ∀ m,
    StronglySorted (PySort.le depth_ge) l → NoDup l →
    let m' := foldl (λ m p, alter (g (s_children m p)) p m) m l in
    ∀ p, m' !! p = if bool_decide (p ∈ l) then g (s_children m' p) <$> m !! p else m !! p.
  Proof.
    induction l as [|p l IH]; intros m Hs Hn m' q.
    - rewrite bool_decide_false by apply not_elem_of_nil. done.
    - inversion_clear Hs as [|? ? Hs' Hf]. inversion_clear Hn as [|? ? Hpl Hn'].
      set (m1 := alter (g (s_children m p)) p m).
      assert (m' = foldl (λ m p, alter (g (s_children m p)) p m) m1 l) as Em' by done.
      pose proof (IH m1 Hs' Hn') as Hspec. cbv zeta in Hspec. rewrite <-Em' in Hspec.
      assert (Hch : s_children m' p = s_children m p).
      { apply s_children_ext. intros c Hc. rewrite Hspec. rewrite bool_decide_false.
        - unfold m1. apply lookup_alter_ne. intros ->. apply child_length in Hc. lia.
        - intros Hin. rewrite Forall_forall in Hf. specialize (Hf _ Hin).
          unfold PySort.le, depth_ge in Hf. apply Nat.leb_le in Hf. apply child_length in Hc. lia. }
      rewrite Hspec. destruct (decide (q = p)) as [->|Hne].
      + rewrite bool_decide_false by done. rewrite bool_decide_true by left.
        unfold m1. by rewrite lookup_alter, Hch.
      + unfold m1. rewrite lookup_alter_ne by done.
        rewrite (bool_decide_ext (q ∈ p :: l) (q ∈ l)); [done|]. rewrite elem_of_cons. naive_solver.
  Qed.
  (** A directory row is computed from its (final) children. *)
  Lemma s_recompute_spec m g ps p :
    s_recompute m g ps !! p =
      if bool_decide (p ∈ ancestry ps) then g (s_children (s_recompute m g ps) p) <$> m !! p else m !! p.
  Proof.
    unfold s_recompute. apply (foldl_recompute_spec g (ancestry ps) m).
    - apply depth_ge_sorted.
    - apply NoDup_ancestry.
  Qed.
  (** The equation determines the result. *)
  Lemma recompute_unique m (A : path → Prop) `{!∀ p, Decision (A p)} g m1 m2 :
    dom m1 = dom m → dom m2 = dom m →
    (∀ p, m1 !! p = if bool_decide (A p) then g (s_children m1 p) <$> m !! p else m !! p) →
    (∀ p, m2 !! p = if bool_decide (A p) then g (s_children m2 p) <$> m !! p else m !! p) →
    m1 = m2.
  Proof.
    intros D1 D2 H1 H2.
    set (N := max_list (map length (elements (dom m)))).
    assert (Hmax : ∀ p, p ∈ dom m → length p <= N).
    { intros p Hp. apply max_list_elem_of_le. apply elem_of_list_fmap. exists p. split; [done|].
      by apply elem_of_elements. }
    assert (∀ k p, N - length p < k → m1 !! p = m2 !! p) as Hk.
    { intros k. induction k as [|k IH]; intros p Hlt; [lia|].
      destruct (decide (N < length p)) as [Hbig|Hbig].
      { assert (p ∉ dom m) as Hp by (intros Hp%Hmax; lia).
        transitivity (None (A:=D)).
        - apply not_elem_of_dom. by rewrite D1.
        - symmetry. apply not_elem_of_dom. by rewrite D2. }
      rewrite H1, H2.
      assert (s_children m1 p = s_children m2 p) as ->; [|done].
      apply s_children_ext. intros c Hc. destruct (decide (length p = N)) as [E|E].
      - assert (c ∉ dom m) as Hcn by (intros Hcd%Hmax; apply child_length in Hc; lia).
        transitivity (None (A:=D)).
        + apply not_elem_of_dom. by rewrite D1.
        + symmetry. apply not_elem_of_dom. by rewrite D2.
      - apply IH. apply child_length in Hc. lia. }
    apply map_eq. intros p. apply (Hk (S (N - length p))). lia.
  Qed.
  Lemma s_recompute_ext m g ps ps' :
    (∀ p, p ∈ ps ↔ p ∈ ps') → s_recompute m g ps = s_recompute m g ps'.
  Proof.
    intros Hps. apply (recompute_unique m (λ p, p ∈ ancestry ps) g).
    - apply dom_s_recompute.
    - apply dom_s_recompute.
    - apply s_recompute_spec.
    - intros p. rewrite s_recompute_spec at 1.
      rewrite (bool_decide_ext (p ∈ ancestry ps') (p ∈ ancestry ps)); [done|].
      rewrite !elem_of_ancestry. split; intros (? & q & Hq & ?); (split; [done|]); exists q; (split; [by apply Hps|done]).
  Qed.
  Lemma s_insert_ext m mk mk' paths paths' :
    (∀ p, p ∈ paths ↔ p ∈ paths') → (∀ p, mk p = mk' p) → s_insert m mk paths = s_insert m mk' paths'.
  Proof.
    intros Hp Hmk. apply map_eq. intros p. rewrite !s_insert_lookup. destruct (m !! p); [done|].
    rewrite (bool_decide_ext _ _ (Hp p)). by rewrite Hmk.
  Qed.
  Lemma parents_ext ps ps' : (∀ p, p ∈ ps ↔ p ∈ ps') → ∀ p, p ∈ parents ps ↔ p ∈ parents ps'.
  Proof. intros Hp p. rewrite !elem_of_parents. naive_solver. Qed.
  Lemma s_add_ext m mk sd paths paths' :
    (∀ p, p ∈ paths ↔ p ∈ paths') → (∀ d, sd (sd d) = sd d) → s_add m mk sd paths = s_add m mk sd paths'.
  Proof.
    intros Hp Hsd. unfold s_add. rewrite (s_insert_ext m mk mk paths paths') by done.
    apply map_eq. intros p. rewrite !s_upd_lookup by by left.
    by rewrite (bool_decide_ext _ _ (parents_ext _ _ Hp p)).
  Qed.
End recompute.

Lemma sum_prio_perm l l' : l ≡ₚ l' → sum_prio l = sum_prio l'.
Proof.
  induction 1 as [|d l l' _ IH|d d' l|l1 l2 l3 _ IH1 _ IH2]; simpl; [done|by rewrite IH| |congruence].
  ring.
Qed.
Lemma all_local_perm l l' : l ≡ₚ l' → all_local l = all_local l'.
Proof.
  intros Hp. unfold all_local. destruct l as [|d l].
  - apply Permutation_nil in Hp as ->. done.
  - destruct l' as [|d' l']; [symmetry in Hp; by apply Permutation_nil in Hp|].
    destruct (forallb ld_local (d :: l)) eqn:E, (forallb ld_local (d' :: l')) eqn:E'; try done; exfalso.
    + rewrite forallb_forall in E. apply not_true_iff_false in E'. apply E', forallb_forall.
      intros x Hx. apply E. apply elem_of_list_In. rewrite Hp. by apply elem_of_list_In.
    + rewrite forallb_forall in E'. apply not_true_iff_false in E. apply E, forallb_forall.
      intros x Hx. apply E'. apply elem_of_list_In. rewrite <-Hp. by apply elem_of_list_In.
Qed.
Lemma g_prio_perm l l' d : l ≡ₚ l' → g_prio l d = g_prio l' d.
Proof. intros Hp. unfold g_prio. by rewrite (sum_prio_perm _ _ Hp). Qed.
Lemma g_local_perm l l' d : l ≡ₚ l' → g_local l d = g_local l' d.
Proof. intros Hp. unfold g_local. by rewrite (all_local_perm _ _ Hp). Qed.

(** ** Histories *)

(** The operations of the local database. *)
Inductive lop :=
  | LAdd (files dirs : list path) (prio : Qc) (local : bool)
  | LAddInflated (files dirs : list path)
  | LUpdate (ps : list path) (dir : option bool) (prio : option Qc) (local : option bool)
  | LRm (ps : list path)
  | LIncrement (ps : list path) (q : Qc)
  | LAdjust (q : Qc).
Definition l_step (H : path → str → Z) (salts : nat → str) (iter : list path → list path)
    (tn : tables ldata * nat) (o : lop) : option (tables ldata * nat) :=
  let '(t, n) := tn in
  match o with
  | LAdd files dirs prio local => l_add H salts iter t n files dirs prio local
  | LAddInflated files dirs => l_add_inflated H salts iter t n files dirs
  | LUpdate ps dir prio local => Some (l_update H t ps dir prio local, n)
  | LRm ps => Some (l_rm H t ps, n)
  | LIncrement ps q => Some (l_increment H t ps q, n)
  | LAdjust q => Some (l_adjust t q, n)
  end.
Definition sl_step (m : gmap path ldata) (o : lop) : option (gmap path ldata) :=
  match o with
  | LAdd files dirs prio local => Some (sl_add m files dirs prio local)
  | LAddInflated files dirs => sl_add_inflated m files dirs
  | LUpdate ps dir prio local => Some (sl_update m ps dir prio local)
  | LRm ps => Some (sl_rm m ps)
  | LIncrement ps q => Some (sl_increment m ps q)
  | LAdjust q => Some (sl_adjust m q)
  end.
Fixpoint run {S O} (step : S → O → option S) (s : S) (os : list O) : option S :=
  match os with
  | [] => Some s
  | o :: os' => match step s o with Some s' => run step s' os' | None => None end
  end.

(** The operations of the remote database. *)
Inductive rop :=
  | RAdd (files dirs : list path) (now : Z)
  | RUpdate (ps : list path) (dir : option bool) (last : option Z)
  | RRm (ps : list path).
Definition r_step (H : path → str → Z) (salts : nat → str) (iter : list path → list path)
    (tn : tables rdata * nat) (o : rop) : option (tables rdata * nat) :=
  let '(t, n) := tn in
  match o with
  | RAdd files dirs now => r_add H salts iter t n files dirs now
  | RUpdate ps dir last => Some (r_update H t ps dir last, n)
  | RRm ps => Some (r_rm H t ps, n)
  end.
Definition sr_step (m : gmap path rdata) (o : rop) : option (gmap path rdata) :=
  match o with
  | RAdd files dirs now => Some (sr_add m files dirs now)
  | RUpdate ps dir last => Some (sr_update m ps dir last)
  | RRm ps => Some (sr_rm m ps)
  end.

(** What callers must respect: parents first or together, no empty path. *)
Definition lop_ok (m : gmap path ldata) (o : lop) : Prop :=
  match o with
  | LAdd files dirs _ _ | LAddInflated files dirs => parents_ok m (files ++ dirs)
  | LRm ps => [] ∉ ps
  | _ => True
  end.
Definition rop_ok (m : gmap path rdata) (o : rop) : Prop :=
  match o with
  | RAdd files dirs _ => parents_ok m (files ++ dirs)
  | RRm ps => [] ∉ ps
  | _ => True
  end.
Fixpoint run_ok {S O} (step : S → O → option S) (ok : S → O → Prop) (s : S) (os : list O) : Prop :=
  match os with
  | [] => True
  | o :: os' => ok s o ∧ (∀ s', step s o = Some s' → run_ok step ok s' os')
  end.

(** Different paths have different (unsalted) hashes. *)
Definition collision_free (H : path → str → Z) : Prop := ∀ p q, H p [] = H q [] → p = q.

Section history.
  Context (H : path → str → Z) (salts : nat → str) (iter : list path → list path).
  Context (Hcf : collision_free H) (Hiter : ∀ l, iter l ≡ₚ l).

  Definition good {D} (t : tables D) (m : gmap path D) : Prop := repr H t m ∧ collisions t = ∅.

  Lemma pid_plain {D} (t : tables D) p : collisions t = ∅ → path_id H t p = H p [].
  Proof. intros E. unfold path_id. by rewrite E. Qed.
  Lemma good_no_alias {D} (t : tables D) m : good t m → no_alias H t m.
  Proof using Hcf. intros [_ E] p q _ Hpq. rewrite !pid_plain in Hpq by done. by apply Hcf. Qed.
  Lemma good_absent {D} (t : tables D) m p : good t m → m !! p = None → nodes t !! path_id H t p = None.
  Proof using Hcf. intros G. eapply repr_absent; [apply G|by apply good_no_alias]. Qed.
  Lemma resolve_plain {D} (t : tables D) m n paths t' n' fuel :
    good t m → resolve H salts fuel t n paths = Some (t', n') → collisions t' = ∅.
  Proof using Hcf.
    intros G E. pose proof G as [R Ec]. apply resolve_spec in E as (En & _ & _ & E2 & _).
    apply map_empty. intros p. destruct (collisions t' !! p) as [s|] eqn:Es; [|done]. exfalso.
    apply E2 in Es as [Es|(_ & _ & _ & q & d & Hnd & Hne)]; [by rewrite Ec in Es|].
    destruct (r_id _ _ _ R _ _ _ Hnd) as [_ E]. rewrite pid_plain in E by done. by apply Hne, Hcf.
  Qed.
  Lemma good_batch {D} (t : tables D) m n paths t' n' fuel :
    good t m → resolve H salts fuel t n paths = Some (t', n') → batch_ok t (path_id H t') m paths.
  Proof using Hcf.
    intros G E. pose proof (resolve_plain _ _ _ _ _ _ _ G E) as E'. split.
    - intros p _ Hp. apply not_elem_of_dom in Hp. rewrite pid_plain by done.
      rewrite <-(pid_plain t) by apply G. by eapply good_absent.
    - intros p q _ _ _ _. rewrite !pid_plain by done. apply Hcf.
  Qed.
  Lemma add_order_elem files dirs p : p ∈ add_order iter files dirs ↔ p ∈ files ++ dirs.
  Proof using Hiter. unfold add_order. by rewrite elem_of_isort, Hiter, elem_of_remove_dups. Qed.
  Lemma good_t_add {D} (t : tables D) m n mk sd files dirs :
    good t m → (∀ d, sd (sd d) = sd d) → parents_ok m (files ++ dirs) →
    ∃ t' n', t_add H salts t n mk sd (add_order iter files dirs) = Some (t', n')
      ∧ good t' (s_add m mk sd (files ++ dirs)).
  Proof using Hcf Hiter.
    intros G Hsd Hp.
    destruct (t_add_repr H salts t m n (add_order iter files dirs) mk sd) as (t' & n' & E & R & t1 & E1 & Ec).
    - apply G.
    - intros p. rewrite add_order_elem. intros Hin. destruct (Hp p Hin) as [? Hor]. split; [done|].
      rewrite add_order_elem. done.
    - apply depth_le_sorted.
    - intros t1 n1 E. by eapply good_batch.
    - exists t', n'. split; [done|]. split.
      + rewrite (s_add_ext m mk sd (files ++ dirs) (add_order iter files dirs)); [done| |done].
        intros p. by rewrite add_order_elem.
      + rewrite Ec. by eapply resolve_plain.
  Qed.
  Lemma good_t_upd {D} (t : tables D) m f ps : good t m → good (t_upd H t f ps) (s_upd m f ps).
  Proof using Hcf.
    intros G. split; [|apply G]. apply t_upd_repr; [apply G|]. intros p _. by apply good_absent.
  Qed.
  Lemma t_recompute_collisions {D} (t : tables D) g ps : collisions (t_recompute H t g ps) = collisions t.
  Proof.
    unfold t_recompute. generalize (map (path_id H t) (ancestry ps)) as l. intros l. revert t.
    induction l as [|i l IH]; intros t; simpl; [done|]. by rewrite IH.
  Qed.
  Lemma good_t_recompute {D} (t : tables D) m g ps :
    (∀ l l' d, l ≡ₚ l' → g l d = g l' d) → good t m → good (t_recompute H t g ps) (s_recompute m g ps).
  Proof using Hcf.
    intros Hg G. split; [|rewrite t_recompute_collisions; apply G].
    apply t_recompute_repr; [done|apply G|]. intros p _. by apply good_absent.
  Qed.
  Lemma good_refresh t m ps : good t m → good (l_refresh H t ps) (sl_refresh m ps).
  Proof using Hcf.
    intros G. unfold l_refresh, sl_refresh.
    apply good_t_recompute; [intros; by apply g_local_perm|].
    apply good_t_recompute; [intros; by apply g_prio_perm|done].
  Qed.
  Lemma rm_collisions {D} (t : tables D) ps : collisions t = ∅ → collisions (t_rm H t ps) = ∅.
  Proof.
    intros E. unfold t_rm. simpl.
    assert (collisions (foldl rm_id t (map (path_id H t) ps)) = ∅) as ->.
    { generalize (map (path_id H t) ps) as l. intros l. revert t E.
      induction l as [|i l IH]; intros t E; simpl; [done|]. by apply IH. }
    apply map_filter_empty.
  Qed.
  Lemma good_t_rm {D} (t : tables D) m ps : good t m → [] ∉ ps → good (t_rm H t ps) (s_rm m ps).
  Proof using Hcf.
    intros G Hn. split; [|apply rm_collisions, G]. apply t_rm_repr; [apply G|done|].
    intros p _ Hp q Hq E. apply Hp. rewrite !pid_plain in E by apply G. by apply Hcf in E as <-.
  Qed.
  Lemma nodes_perm {D} (t : tables D) m :
    good t m → map (λ kv, kv.2.2) (map_to_list (nodes t)) ≡ₚ map snd (map_to_list m).
  Proof.
    intros [R Ec].
    assert (map (λ kv : Z * (path * D), kv.2.2) (map_to_list (nodes t))
            = map snd (map (λ kv : Z * (path * D), kv.2) (map_to_list (nodes t)))) as ->.
    { by rewrite map_map. }
    apply Permutation_map. apply NoDup_Permutation.
    - apply NoDup_fmap_2_strong; [|apply NoDup_map_to_list].
      intros [i [p d]] [j [q e]] Hi Hj E. simplify_eq/=.
      apply elem_of_map_to_list in Hi, Hj.
      apply (r_id _ _ _ R) in Hi as [_ ->]. apply (r_id _ _ _ R) in Hj as [_ ->]. done.
    - apply NoDup_map_to_list.
    - intros [p d]. rewrite elem_of_list_fmap, elem_of_map_to_list. split.
      + intros ([i [q e]] & E & Hin). simplify_eq/=. apply elem_of_map_to_list in Hin.
        by apply (r_id _ _ _ R) in Hin as [? _].
      + intros Hp. exists (path_id H t p, (p, d)). split; [done|].
        apply elem_of_map_to_list. by apply (r_node _ _ _ R).
  Qed.

  Lemma set_ldir_idem d : set_ldir true (set_ldir true d) = set_ldir true d.
  Proof. done. Qed.
  Lemma good_l_add t m n files dirs prio local :
    good t m → parents_ok m (files ++ dirs) →
    ∃ t' n', l_add H salts iter t n files dirs prio local = Some (t', n')
      ∧ good t' (sl_add m files dirs prio local).
  Proof using Hcf Hiter.
    intros G Hp. unfold l_add.
    destruct (good_t_add t m n (λ p, LData (bool_decide (p ∈ dirs)) prio local) (set_ldir true) files dirs G)
      as (t' & n' & -> & G'); [done|done|].
    eexists _, _. split; [done|]. unfold sl_add.
    assert (sl_refresh (s_add m (λ p, LData (bool_decide (p ∈ dirs)) prio local) (set_ldir true) (files ++ dirs))
              (parents (files ++ dirs))
            = sl_refresh (s_add m (λ p, LData (bool_decide (p ∈ dirs)) prio local) (set_ldir true) (files ++ dirs))
              (parents (add_order iter files dirs))) as ->.
    { assert (∀ p, p ∈ parents (files ++ dirs) ↔ p ∈ parents (add_order iter files dirs)) as Hpar.
      { apply parents_ext. intros p. by rewrite add_order_elem. }
      unfold sl_refresh. rewrite (s_recompute_ext _ g_prio _ _ Hpar). by apply s_recompute_ext. }
    by apply good_refresh.
  Qed.
End history.

Lemma max_prio_spec l :
  match max_prio l with
  | None => ∀ d, d ∈ l → ld_dir d = true
  | Some q => (∃ d, d ∈ l ∧ ld_dir d = false ∧ ld_prio d = q) ∧ (∀ d, d ∈ l → ld_dir d = false → (ld_prio d <= q)%Qc)
  end.
Proof.
  induction l as [|d l IH]; [intros d Hd; by apply elem_of_nil in Hd|].
  cbn [max_prio foldr]. fold (max_prio l). destruct (ld_dir d) eqn:Ed.
  - destruct (max_prio l) as [q|].
    + destruct IH as [(d0 & Hd0 & E0) IH]. split; [exists d0; split; [by right|done]|].
      intros d1 Hd1 E1. apply elem_of_cons in Hd1 as [->|Hd1]; [congruence|by apply IH].
    + intros d1 Hd1. apply elem_of_cons in Hd1 as [->|Hd1]; [done|by apply IH].
  - destruct (max_prio l) as [q|].
    + destruct IH as [(d0 & Hd0 & E0 & E0') IH]. case_bool_decide as Hq.
      * split; [exists d; split; [left|done]|].
        intros d1 Hd1 E1. apply elem_of_cons in Hd1 as [->|Hd1]; [apply Qcle_refl|].
        eapply Qcle_trans; [by apply IH|done].
      * split; [exists d0; split; [by right|done]|].
        intros d1 Hd1 E1. apply elem_of_cons in Hd1 as [->|Hd1]; [|by apply IH].
        apply Qcnot_le_lt in Hq. by apply Qclt_le_weak.
    + split; [exists d; split; [left|done]|].
      intros d1 Hd1 E1. apply elem_of_cons in Hd1 as [->|Hd1]; [apply Qcle_refl|].
      apply IH in Hd1. congruence.
Qed.
Lemma max_prio_perm l l' : l ≡ₚ l' → max_prio l = max_prio l'.
Proof.
  intros Hp. pose proof (max_prio_spec l) as S1. pose proof (max_prio_spec l') as S2.
  destruct (max_prio l) as [q|], (max_prio l') as [q'|]; [| | |done].
  - destruct S1 as [(d & Hd & Ed & <-) M1], S2 as [(d' & Hd' & Ed' & <-) M2]. f_equal.
    apply Qcle_antisym.
    + apply M2; [by rewrite <-Hp|done].
    + apply M1; [by rewrite Hp|done].
  - destruct S1 as [(d & Hd & Ed & _) _]. rewrite Hp in Hd. apply S2 in Hd. congruence.
  - destruct S2 as [(d & Hd & Ed & _) _]. rewrite <-Hp in Hd. apply S1 in Hd. congruence.
Qed.

Section history2.
  Context (H : path → str → Z) (salts : nat → str) (iter : list path → list path).
  Context (Hcf : collision_free H) (Hiter : ∀ l, iter l ≡ₚ l).

  Lemma s_recompute_nil {D} (m : gmap path D) g : s_recompute m g [] = m.
  Proof. done. Qed.
  Lemma sl_add_nil m q b : sl_add m [] [] q b = m.
  Proof.
    unfold sl_add, sl_refresh. simpl. change (parents []) with (@nil path). rewrite !s_recompute_nil.
    unfold s_add, s_insert. simpl. change (parents []) with (@nil path). simpl. by rewrite map_union_empty.
  Qed.

  Lemma good_l_step t m n o :
    good H t m → lop_ok m o →
    match sl_step m o with
    | Some m' => ∃ t' n', l_step H salts iter (t, n) o = Some (t', n') ∧ good H t' m'
    | None => l_step H salts iter (t, n) o = None
    end.
  Proof using Hcf Hiter.
    intros G Hok. destruct o as [files dirs prio local|files dirs|ps dir prio local|ps|ps q|q]; simpl.
    - by apply good_l_add.
    - unfold sl_add_inflated, l_add_inflated, sl_max.
      rewrite (max_prio_perm _ _ (nodes_perm H t m G)).
      destruct (max_prio _) as [q|]; [by apply good_l_add|].
      case_bool_decide; [|done].
      destruct (good_l_add H salts iter Hcf Hiter t m n [] [] 0%Qc true G) as (t' & n' & E & G').
      + intros p Hp. by apply elem_of_nil in Hp.
      + rewrite sl_add_nil in G'. eauto.
    - eexists _, _. split; [done|]. unfold l_update, sl_update. apply good_refresh; [done|].
      by do 3 (apply good_t_upd; [done|]).
    - eexists _, _. split; [done|]. unfold l_rm, sl_rm. apply good_refresh; [done|]. by apply good_t_rm.
    - eexists _, _. split; [done|]. unfold l_increment, sl_increment.
      apply good_t_recompute; [done|intros; by apply g_prio_perm|]. by apply good_t_upd.
    - eexists _, _. split; [done|]. unfold l_adjust, sl_adjust. destruct G as [R Ec]. split; [|done].
      apply (repr_same_keys H t m); [done|apply dom_fmap_L| |].
      + intros p d. rewrite lookup_fmap. intros (d0 & Hd & ->)%fmap_Some.
        by rewrite lookup_fmap, (r_node _ _ _ R _ _ Hd).
      + intros i p d. rewrite lookup_fmap. intros ([p0 d0] & Hd & E)%fmap_Some. simplify_eq/=.
        destruct (r_id _ _ _ R _ _ _ Hd) as [Hm ->]. by rewrite lookup_fmap, Hm.
  Qed.
  Lemma good_l_run os : ∀ t m n, good H t m → run_ok sl_step lop_ok m os →
    match run sl_step m os with
    | Some m' => ∃ t' n', run (l_step H salts iter) (t, n) os = Some (t', n') ∧ good H t' m'
    | None => run (l_step H salts iter) (t, n) os = None
    end.
  Proof using Hcf Hiter.
    induction os as [|o os IH]; intros t m n G Hok; cbn [run]; [eauto|].
    destruct Hok as [Ho Hok]. pose proof (good_l_step t m n o G Ho) as Hs.
    destruct (sl_step m o) as [m'|]; [|by rewrite Hs].
    destruct Hs as (t' & n' & -> & G'). by apply IH, Hok.
  Qed.
  Lemma good_queries {D} (t : tables D) m root P :
    good H t m → t_query H t root P = s_query m root P.
  Proof using Hcf.
    intros G. apply t_query_repr; [apply G|]. intros r _ _ q Hq E. by apply (good_no_alias H Hcf t m G).
  Qed.

  Lemma good_r_step t m n o :
    good H t m → rop_ok m o →
    ∃ m' t' n', sr_step m o = Some m' ∧ r_step H salts iter (t, n) o = Some (t', n') ∧ good H t' m'.
  Proof using Hcf Hiter.
    intros G Hok. destruct o as [files dirs now|ps dir last|ps]; simpl.
    - destruct (good_t_add H salts iter Hcf Hiter t m n (λ p, RData (bool_decide (p ∈ dirs)) now) (set_rdir true) files dirs G)
        as (t' & n' & E & G'); [done|done|]. unfold r_add. rewrite E. eexists _, _, _. split; [done|]. split; [done|]. done.
    - eexists _, _, _. split; [done|]. split; [done|]. by do 2 (apply good_t_upd; [done|]).
    - eexists _, _, _. split; [done|]. split; [done|]. by apply good_t_rm.
  Qed.
  Lemma good_r_run os : ∀ t m n, good H t m → run_ok sr_step rop_ok m os →
    ∃ m' t' n', run sr_step m os = Some m' ∧ run (r_step H salts iter) (t, n) os = Some (t', n') ∧ good H t' m'.
  Proof using Hcf Hiter.
    induction os as [|o os IH]; intros t m n G Hok; cbn [run]; [by eexists _, _, _|].
    destruct Hok as [Ho Hok].
    destruct (good_r_step t m n o G Ho) as (m' & t' & n' & E1 & E2 & G'). rewrite E1.
    rewrite E2.
    by apply IH; [|apply Hok].
  Qed.
End history2.
