(** The tables of [DBTables] refine the maps of [DBSpec]. *)
From Coq Require Import QArith Qcanon.
From Verif Require Export DBSpec.
From stdpp Require Import options.

Section refine.
  Context {D : Type} (H : path → str → Z) (salts : nat → str).
  Implicit Types (t : tables D) (m : gmap path D) (p q : path) (ps paths : list path) (n fuel : nat).
  Local Notation pid := (path_id H).

  Definition clo_ok (idf : path → Z) (S : gset path) (c : gmap (Z * Z) nat) : Prop :=
    ∀ a b k, c !! (a, b) = Some k ↔
      ∃ p q, p ∈ S ∧ q ∈ S ∧ a = idf p ∧ b = idf q ∧ p `prefix_of` q ∧ k = length q - length p.

  (** The representation invariant. *)
  Record repr t m : Prop := {
    r_node : ∀ p d, m !! p = Some d → nodes t !! pid t p = Some (p, d);
    r_id : ∀ i p d, nodes t !! i = Some (p, d) → m !! p = Some d ∧ i = pid t p;
    r_clo : clo_ok (pid t) (dom m) (closure t);
    r_par : ∀ p, p ∈ dom m → p ≠ [] ∧ (parent p ≠ [] → parent p ∈ dom m)
  }.

  Lemma repr_empty : repr t_empty ∅.
  Proof.
    split; simpl.
    - intros p d. by rewrite lookup_empty.
    - intros i p d. by rewrite lookup_empty.
    - intros a b k. rewrite lookup_empty. split; [done|]. intros (p & q & Hp & _). set_solver.
    - set_solver.
  Qed.

  Lemma repr_inj t m p q : repr t m → p ∈ dom m → q ∈ dom m → pid t p = pid t q → p = q.
  Proof.
    intros R [d Hp]%elem_of_dom [e Hq]%elem_of_dom E.
    apply (r_node _ _ R) in Hp, Hq. rewrite E, Hq in Hp. by simplify_eq.
  Qed.
  Lemma repr_nodes_iff t m p d : repr t m → (nodes t !! pid t p = Some (p, d) ↔ m !! p = Some d).
  Proof. intros R. split; [intros E; by apply (r_id _ _ R) in E as [? _]|apply (r_node _ _ R)]. Qed.
  (** No absent path has the id of a present one. *)
  Definition no_alias t m : Prop := ∀ p q, q ∈ dom m → pid t p = pid t q → p = q.
  Lemma repr_absent t m p : repr t m → no_alias t m → m !! p = None → nodes t !! pid t p = None.
  Proof.
    intros R Hna Hp. destruct (nodes t !! pid t p) as [[q d]|] eqn:E; [|done].
    apply (r_id _ _ R) in E as [Hq E]. apply Hna in E; [|by apply elem_of_dom].
    subst. congruence.
  Qed.
  Lemma t_info_repr t m p : repr t m → no_alias t m → t_info H t p = m !! p.
  Proof.
    intros R Hna. unfold t_info. destruct (m !! p) as [d|] eqn:E.
    - by rewrite (r_node _ _ R _ _ E).
    - by rewrite (repr_absent _ _ _ R Hna E).
  Qed.
  Lemma t_info_known t m p d : repr t m → m !! p = Some d → t_info H t p = Some d.
  Proof. intros R Hp. unfold t_info. by rewrite (r_node _ _ R _ _ Hp). Qed.

  (** *** Prefix-closedness *)
  Lemma repr_prefix t m p q : repr t m → q ∈ dom m → p `prefix_of` q → p ≠ [] → p ∈ dom m.
  Proof.
    intros R. remember (length q) as n eqn:En. revert q En.
    induction n as [|n IH]; intros q En Hq Hp Hn.
    - destruct q; [|done]. by apply prefix_nil_inv in Hp.
    - destruct (r_par _ _ R q Hq) as [Hqn Hpar]. destruct (snoc_parent q Hqn) as [x Hx].
      rewrite Hx in Hp. apply prefix_snoc_inv in Hp as [Hp| ->]; [|by rewrite <-Hx].
      destruct (decide (parent q = [])) as [E|E]; [rewrite E in Hp; by apply prefix_nil_inv in Hp|].
      apply (IH (parent q)); [|by apply Hpar|done|done].
      rewrite Hx, app_length in En. simpl in En. lia.
  Qed.

  (** *** Queries *)
  Lemma t_query_repr t m root P :
    repr t m → (∀ r, root = Some r → r ≠ [] → ∀ q, q ∈ dom m → pid t r = pid t q → r = q) →
    t_query H t root P = s_query m root P.
  Proof.
    intros R Hroot. unfold t_query. apply map_eq. intros p. apply option_eq. intros d.
    rewrite s_query_lookup.
    set (start := match root with Some [] => None | Some r => Some (pid t r) | None => None end).
    set (f := λ kv : Z * Z * nat,
       match nodes t !! kv.1.2 with
       | Some (p, d) => if (match start with None => true | Some i => bool_decide (kv.1.1 = i) end) && P d
                        then Some (p, d) else None
       | None => None end).
    assert (∀ x, x ∈ omap f (map_to_list (closure t)) ↔
       m !! x.1 = Some x.2 ∧ default [] root `prefix_of` x.1 ∧ P x.2 = true) as Hel.
    { intros [p' d']. simpl. rewrite elem_of_list_omap. split.
      - intros ([[a b] k] & Hin & Hf). apply elem_of_map_to_list in Hin.
        apply (r_clo _ _ R) in Hin as (u & v & Hu & Hv & -> & -> & Hpre & _).
        unfold f in Hf. simpl in Hf. apply elem_of_dom in Hv as [dv Hv'].
        rewrite (r_node _ _ R _ _ Hv') in Hf.
        destruct (_ && P dv) eqn:Ec; [|done]. simplify_eq. apply andb_true_iff in Ec as [Es HP].
        split; [done|]. split; [|done].
        destruct root as [[|x r]|]; simpl in *; [apply prefix_nil| |apply prefix_nil].
        apply bool_decide_eq_true in Es. rewrite (Hroot (x :: r) eq_refl ltac:(done) u); [done|done|done].
      - intros (Hp & Hr & HP).
        assert (p' ∈ dom m) as Hd by by apply elem_of_dom.
        set (anc := match default [] root with [] => p' | r => r end).
        assert (anc `prefix_of` p' ∧ anc ∈ dom m) as [Hanc Hancd].
        { unfold anc. destruct (default [] root) as [|x r] eqn:Er; [done|]. split; [done|].
          by eapply repr_prefix. }
        exists (pid t anc, pid t p', length p' - length anc). split.
        + apply elem_of_map_to_list. apply (r_clo _ _ R). exists anc, p'. done.
        + unfold f. simpl. rewrite (r_node _ _ R _ _ Hp), HP, andb_true_r.
          unfold start, anc. destruct root as [[|x r]|]; simpl; [done| |done].
          by rewrite bool_decide_true. }
    split.
    - intros E. apply elem_of_list_to_map_2 in E. by apply Hel in E.
    - intros E. apply elem_of_list_to_map_1'; [|by apply (Hel (p, d))].
      intros d' Hin. apply Hel in Hin as [Hin _]. simpl in *. destruct E as [E _]. congruence.
  Qed.

  (** *** Updates *)
  Lemma foldl_upd_lookup f (is : list Z) (nd : gmap Z (path * D)) i :
    ((∀ d, f (f d) = f d) ∨ NoDup is) →
    foldl (upd_id f) nd is !! i =
      if bool_decide (i ∈ is) then (λ pd, (pd.1, f pd.2)) <$> nd !! i else nd !! i.
  Proof.
    revert nd. induction is as [|j is IH]; intros nd Hf; cbn [foldl].
    - rewrite bool_decide_false by apply not_elem_of_nil. done.
    - rewrite IH.
      2:{ destruct Hf as [?|Hn]; [by left|]. right. by inversion Hn. }
      unfold upd_id. destruct (decide (i = j)) as [->|Hne].
      + rewrite lookup_alter. rewrite (bool_decide_true (j ∈ j :: is)) by left.
        case_bool_decide as Hq; [|done].
        destruct Hf as [Hf|Hn]; [|by inversion Hn].
        destruct (nd !! j) as [[p d]|]; simpl; [by rewrite Hf|done].
      + rewrite lookup_alter_ne by done.
        rewrite (bool_decide_ext (i ∈ j :: is) (i ∈ is)); [done|].
        rewrite elem_of_cons. naive_solver.
  Qed.

  Lemma repr_same_keys t m nd' m' :
    repr t m → dom m' = dom m →
    (∀ p d, m' !! p = Some d → nd' !! pid t p = Some (p, d)) →
    (∀ i p d, nd' !! i = Some (p, d) → m' !! p = Some d ∧ i = pid t p) →
    repr (Tables nd' (closure t) (collisions t)) m'.
  Proof.
    intros R Hd H1 H2. split.
    - exact H1.
    - exact H2.
    - rewrite Hd. exact (r_clo _ _ R).
    - rewrite Hd. exact (r_par _ _ R).
  Qed.

  Lemma upd_id_repr t m f p :
    repr t m → (m !! p = None → nodes t !! pid t p = None) →
    repr (Tables (upd_id f (nodes t) (pid t p)) (closure t) (collisions t)) (alter f p m).
  Proof.
    intros R Hna. apply (repr_same_keys t m); [done|apply dom_alter_L| |]; unfold upd_id.
    - intros q d. destruct (decide (p = q)) as [->|Hne].
      + rewrite !lookup_alter. intros (d0 & Hd0 & ->)%fmap_Some. by rewrite (r_node _ _ R _ _ Hd0).
      + rewrite lookup_alter_ne by done. intros Hq. rewrite lookup_alter_ne; [by apply (r_node _ _ R)|].
        intros E. destruct (m !! p) as [e|] eqn:Ep.
        * apply Hne. eapply repr_inj; [done|by apply elem_of_dom|by apply elem_of_dom|done].
        * specialize (Hna eq_refl). rewrite E, (r_node _ _ R _ _ Hq) in Hna. done.
    - intros i q d. destruct (decide (pid t p = i)) as [<-|Hne].
      + rewrite lookup_alter. intros ([q' d0] & Hq & E)%fmap_Some. simplify_eq/=.
        destruct (r_id _ _ R _ _ _ Hq) as [Hm E].
        destruct (m !! p) as [e|] eqn:Ep.
        * assert (p = q') as -> by (eapply repr_inj; [done|by apply elem_of_dom|by apply elem_of_dom|done]).
          rewrite lookup_alter, Hm. done.
        * specialize (Hna eq_refl). congruence.
      + rewrite lookup_alter_ne by done. intros Hi. destruct (r_id _ _ R _ _ _ Hi) as [Hm ->].
        split; [|done]. rewrite lookup_alter_ne; [done|]. by intros ->.
  Qed.
  (** [no_alias] only depends on ids and keys. *)
  Lemma no_alias_same t m nd' m' :
    no_alias t m → dom m' = dom m → no_alias (Tables nd' (closure t) (collisions t)) m'.
  Proof. intros Hna Hd p q Hq E. rewrite Hd in Hq. by apply Hna. Qed.

  Lemma t_upd_repr t m f ps :
    repr t m → (∀ p, p ∈ ps → m !! p = None → nodes t !! pid t p = None) →
    repr (t_upd H t f ps) (s_upd m f ps).
  Proof.
    intros R Hna. unfold t_upd, s_upd.
    assert (∀ nd m', repr (Tables nd (closure t) (collisions t)) m' →
       (∀ p, p ∈ ps → m' !! p = None → nd !! pid t p = None) →
       repr (Tables (foldl (upd_id f) nd (map (pid t) ps)) (closure t) (collisions t))
            (foldl (λ m p, alter f p m) m' ps)) as Hgen.
    { clear R Hna. induction ps as [|p ps IH]; intros nd m' R Hna; [done|]. simpl.
      apply IH.
      - apply (upd_id_repr _ _ f p) in R; [exact R|]. apply Hna. left.
      - intros q Hq Hn. unfold upd_id.
        assert (m' !! q = None) as Hq'.
        { apply not_elem_of_dom. apply not_elem_of_dom in Hn. by rewrite dom_alter_L in Hn. }
        assert (nd !! pid t q = None) as Hnd by (apply Hna; [by right|done]).
        destruct (decide (pid t p = pid t q)) as [E|E].
        + rewrite E, lookup_alter, Hnd. done.
        + by rewrite lookup_alter_ne. }
    apply Hgen; [|done]. by destruct t.
  Qed.

  (** *** Recomputing directories from their children *)
  Lemma t_children_repr t m p : repr t m → p ∈ dom m → t_children t (pid t p) ≡ₚ s_children m p.
  Proof.
    intros R Hp. unfold t_children, s_children.
    set (f := λ kv : Z * Z * nat, if bool_decide (kv.1.1 = pid t p) && Nat.eqb kv.2 1
                                  then snd <$> nodes t !! kv.1.2 else None).
    set (cs := map_to_list (filter (λ kv : path * D, child_of kv.1 p) m)).
    assert (omap f (map_to_list (closure t)) = map snd (omap (λ kv, (λ d, (kv, d)) <$> f kv) (map_to_list (closure t)))) as ->.
    { induction (map_to_list (closure t)) as [|kv l IH]; [done|]. csimpl.
      destruct (f kv); csimpl; [by rewrite IH|done]. }
    assert (map snd cs = map snd (map (λ kv, ((pid t p, pid t kv.1, 1), kv.2)) cs)) as ->.
    { rewrite map_map. done. }
    apply Permutation_map. apply NoDup_Permutation.
    - assert (NoDup (map_to_list (closure t))) as Hnd by apply NoDup_map_to_list.
      induction Hnd as [|kv l Hkv Hnd IH]; [constructor|]. csimpl.
      destruct (f kv); csimpl; [|done]. constructor; [|done].
      rewrite elem_of_list_omap. intros (kv' & Hin & E). apply fmap_Some in E as (d' & _ & E). by simplify_eq.
    - apply NoDup_fmap_2_strong; [|apply NoDup_map_to_list].
      intros [q d] [q' d'] Hq Hq' E. simplify_eq/=.
      apply elem_of_map_to_list, map_filter_lookup_Some in Hq as [Hq _].
      apply elem_of_map_to_list, map_filter_lookup_Some in Hq' as [Hq' _].
      f_equal. eapply repr_inj; [done|by apply elem_of_dom|by apply elem_of_dom|done].
    - intros [[[a b] k] d]. rewrite elem_of_list_omap, elem_of_list_fmap. split.
      + intros (kv & Hin & E). apply fmap_Some in E as (d' & Hf & E). simplify_eq.
        apply elem_of_map_to_list in Hin. apply (r_clo _ _ R) in Hin as (u & v & Hu & Hv & -> & -> & Hpre & Hk).
        unfold f in Hf. simpl in Hf. destruct (_ && _) eqn:Ec; [|done].
        apply andb_true_iff in Ec as [Ec1 Ec2]. apply bool_decide_eq_true in Ec1. apply Nat.eqb_eq in Ec2. subst k.
        assert (u = p) as -> by (eapply repr_inj; done).
        apply fmap_Some in Hf as ([v' dv] & Hv' & ->).
        destruct (r_id _ _ R _ _ _ Hv') as [Hm Ev].
        assert (v = v') as <-. { eapply repr_inj; [done|done|by apply elem_of_dom|done]. }
        exists (v, dv). split; [simpl; by rewrite Ec2|].
        apply elem_of_map_to_list, map_filter_lookup_Some. split; [done|]. simpl.
        apply prefix_child; [done|]. pose proof (prefix_length _ _ Hpre). lia.
      + intros ([q d'] & E & Hin). simplify_eq/=.
        apply elem_of_map_to_list, map_filter_lookup_Some in Hin as [Hq Hc]. simpl in Hc.
        exists (pid t p, pid t q, 1). split.
        * apply elem_of_map_to_list, (r_clo _ _ R). exists p, q.
          split; [done|]. split; [by apply elem_of_dom|]. split; [done|]. split; [done|].
          split; [by apply child_prefix|]. apply child_length in Hc. lia.
        * unfold f. simpl. rewrite bool_decide_true by done. simpl. by rewrite (r_node _ _ R _ _ Hq).
  Qed.

  Lemma t_recompute_repr t m g ps :
    (∀ l l' d, l ≡ₚ l' → g l d = g l' d) →
    repr t m → (∀ p, p ∈ ancestry ps → m !! p = None → nodes t !! pid t p = None) →
    repr (t_recompute H t g ps) (s_recompute m g ps).
  Proof.
    intros Hg R Hna. unfold t_recompute, s_recompute.
    assert (∀ l nd m', repr (Tables nd (closure t) (collisions t)) m' →
       (∀ p, p ∈ l → m' !! p = None → nd !! pid t p = None) →
       repr (foldl (λ t i, Tables (upd_id (g (t_children t i)) (nodes t) i) (closure t) (collisions t))
               (Tables nd (closure t) (collisions t)) (map (pid t) l))
            (foldl (λ m p, alter (g (s_children m p)) p m) m' l)) as Hgen.
    { clear R Hna. intros l. induction l as [|p l IH]; intros nd m' R Hna; [done|]. simpl.
      apply IH.
      - destruct (m' !! p) as [d|] eqn:Ep.
        + assert (alter (g (s_children m' p)) p m'
              = alter (g (t_children (Tables nd (closure t) (collisions t)) (pid t p))) p m') as ->.
          { apply alter_ext. intros x _. apply Hg. symmetry.
            apply (t_children_repr _ _ p) in R; [exact R|by apply elem_of_dom]. }
          apply (upd_id_repr _ _ (g (t_children (Tables nd (closure t) (collisions t)) (pid t p))) p) in R; [exact R|].
          simpl. congruence.
        + assert (nd !! pid t p = None) as Hn by (apply Hna; [left|done]).
          unfold upd_id. rewrite !alter_id; [done|congruence|congruence].
      - intros q Hq Hn. unfold upd_id.
        assert (m' !! q = None) as Hq'.
        { apply not_elem_of_dom. apply not_elem_of_dom in Hn. by rewrite dom_alter_L in Hn. }
        assert (nd !! pid t q = None) as Hnd by (apply Hna; [by right|done]).
        destruct (decide (pid t p = pid t q)) as [E|E].
        + rewrite E, lookup_alter, Hnd. done.
        + by rewrite lookup_alter_ne. }
    specialize (Hgen (ancestry ps) (nodes t) m). destruct t as [nd cl co]. simpl in *.
    by apply Hgen.
  Qed.

  (** *** Adding *)
  Lemma collide_spec (nd : gmap Z (path * D)) (ids : list (path * Z)) : ∀ coll n cnt coll' n' cnt',
    foldl (collide_row salts nd) (coll, n, cnt) ids = (coll', n', cnt') →
    coll ⊆ coll' ∧
    (∀ p s, coll' !! p = Some s → coll !! p = Some s ∨
       (coll !! p = None ∧ (∃ k, s = salts k) ∧ ∃ i q d, (p, i) ∈ ids ∧ nd !! i = Some (q, d) ∧ q ≠ p)) ∧
    size coll' + cnt = size coll + cnt' ∧
    (cnt' = cnt → coll' = coll ∧
       ∀ p i q d, (p, i) ∈ ids → nd !! i = Some (q, d) → q ≠ p → is_Some (coll !! p)).
  Proof.
    induction ids as [|[p i] ids IH]; intros coll n cnt coll' n' cnt' E; simpl in E.
    - simplify_eq. split; [done|]. split; [by left|]. split; [done|]. intros _. split; [done|].
      intros p i q d Hin. by apply elem_of_nil in Hin.
    - destruct (nd !! i) as [[q d]|] eqn:Ei.
      2:{ apply IH in E as (E1 & E2 & E3 & E4). split; [done|]. split; [|split; [done|]].
          - intros p' s Hs. apply E2 in Hs as [Hs|(Hn & Hk & i' & q & d & Hin & Hx)]; [by left|].
            right. split; [done|]. split; [done|]. exists i', q, d. split; [by right|done].
          - intros Hc. destruct (E4 Hc) as [E5 E6]. split; [done|].
            intros p' i' q d Hin Hnd Hne. apply elem_of_cons in Hin as [Hin|Hin]; [by simplify_eq|]. by eapply E6. }
      case_bool_decide as Hq.
      { apply IH in E as (E1 & E2 & E3 & E4). split; [done|]. split; [|split; [done|]].
        - intros p' s Hs. apply E2 in Hs as [Hs|(Hn & Hk & i' & q' & d' & Hin & Hx)]; [by left|].
          right. split; [done|]. split; [done|]. exists i', q', d'. split; [by right|done].
        - intros Hc. destruct (E4 Hc) as [E5 E6]. split; [done|].
          intros p' i' q' d' Hin Hnd Hne. apply elem_of_cons in Hin as [Hin|Hin]; [by simplify_eq|]. by eapply E6. }
      destruct (coll !! p) as [s0|] eqn:Ep.
      { apply IH in E as (E1 & E2 & E3 & E4). split; [done|]. split; [|split; [done|]].
        - intros p' s Hs. apply E2 in Hs as [Hs|(Hn & Hk & i' & q' & d' & Hin & Hx)]; [by left|].
          right. split; [done|]. split; [done|]. exists i', q', d'. split; [by right|done].
        - intros Hc. destruct (E4 Hc) as [E5 E6]. split; [done|].
          intros p' i' q' d' Hin Hnd Hne. apply elem_of_cons in Hin as [Hin|Hin]; [simplify_eq; by eexists|]. by eapply E6. }
      apply IH in E as (E1 & E2 & E3 & E4).
      assert (coll ⊆ <[p:=salts n]> coll) as Hsub by by apply insert_subseteq.
      rewrite map_size_insert_None in E3 by done.
      split; [by etrans|]. split; [|split; [lia|]].
      + intros p' s Hs. apply E2 in Hs as [Hs|(Hn & Hk & i' & q' & d' & Hin & Hx)].
        * destruct (decide (p = p')) as [<-|Hne].
          -- rewrite lookup_insert in Hs. simplify_eq. right. split; [done|]. split; [by eexists|].
             exists i, q, d. split; [left|done].
          -- rewrite lookup_insert_ne in Hs by done. by left.
        * destruct (decide (p = p')) as [<-|Hne]; [by rewrite lookup_insert in Hn|].
          rewrite lookup_insert_ne in Hn by done.
          right. split; [done|]. split; [done|]. exists i', q', d'. split; [by right|done].
      + intros Hc. pose proof (subseteq_size _ _ (subseteq_dom (D:=gset path) _ _ E1)) as Hsz.
        rewrite !size_dom, map_size_insert_None in Hsz by done. lia.
  Qed.

  Lemma resolve_spec fuel paths : ∀ t n t' n', resolve H salts fuel t n paths = Some (t', n') →
    nodes t' = nodes t ∧ closure t' = closure t ∧ collisions t ⊆ collisions t' ∧
    (∀ p s, collisions t' !! p = Some s → collisions t !! p = Some s ∨
       (collisions t !! p = None ∧ p ∈ paths ∧ (∃ k, s = salts k) ∧
        ∃ q d, nodes t !! H p [] = Some (q, d) ∧ q ≠ p)) ∧
    (∀ p q d, p ∈ paths → nodes t !! pid t' p = Some (q, d) → q ≠ p → is_Some (collisions t' !! p)).
  Proof.
    induction fuel as [|fuel IH]; intros t n t' n' E; [done|]. simpl in E.
    destruct (foldl _ _ _) as [[coll n1] cnt] eqn:Ef.
    apply collide_spec in Ef as (E1 & E2 & E3 & E4).
    assert (∀ p s, coll !! p = Some s → collisions t !! p = Some s ∨
       (collisions t !! p = None ∧ p ∈ paths ∧ (∃ k, s = salts k) ∧
        ∃ q d, nodes t !! H p [] = Some (q, d) ∧ q ≠ p)) as Hstep.
    { intros p s Hs. apply E2 in Hs as [Hs|(Hn & Hk & i & q & d & Hin & Hnd & Hne)]; [by left|].
      apply elem_of_list_fmap in Hin as (p' & Ep & Hp'). simplify_eq.
      right. split; [done|]. split; [done|]. split; [done|]. exists q, d.
      unfold path_id in Hnd. by rewrite Hn in Hnd. }
    destruct (Nat.eqb_spec cnt 0) as [->|Hc].
    - simplify_eq. destruct (E4 eq_refl) as [-> E5]. simpl.
      split; [done|]. split; [done|]. split; [done|]. split; [done|].
      intros p q d Hp Hnd Hne. eapply E5; [|exact Hnd|done].
      apply elem_of_list_fmap. by exists p.
    - apply IH in E as (F1 & F2 & F3 & F4 & F5). simpl in *.
      split; [done|]. split; [done|]. split; [by etrans|]. split; [|by eauto].
      intros p s Hs. apply F4 in Hs as [Hs|(Hn & Hp & Hk & Hx)]; [by apply Hstep|].
      right. split; [|done]. destruct (collisions t !! p) as [s'|] eqn:Es; [|done].
      eapply lookup_weaken in Es; [|exact E1]. congruence.
  Qed.

  Lemma resolve_terminates paths (U : gset path) fuel : ∀ t n,
    dom (collisions t) ⊆ U → list_to_set paths ⊆ U → size U < fuel + size (collisions t) →
    is_Some (resolve H salts fuel t n paths).
  Proof.
    induction fuel as [|fuel IH]; intros t n Hd Hp Hs.
    - exfalso. apply subseteq_size in Hd. rewrite size_dom in Hd. lia.
    - simpl. destruct (foldl _ _ _) as [[coll n1] cnt] eqn:Ef.
      apply collide_spec in Ef as (E1 & E2 & E3 & E4).
      destruct (Nat.eqb_spec cnt 0) as [->|Hc]; [by eexists|].
      apply IH; simpl; [|done|lia].
      intros p [s Hps]%elem_of_dom. apply E2 in Hps as [Hps|(_ & _ & i & q & d & Hin & _)].
      + apply Hd. by apply elem_of_dom.
      + apply elem_of_list_fmap in Hin as (p' & Ep & Hp'). simplify_eq. set_solver.
  Qed.
  (** The loop of [add_paths] ends: one pass per path and a final one. *)
  Lemma resolve_total t n paths : is_Some (resolve H salts (S (length paths)) t n paths).
  Proof.
    apply (resolve_terminates paths (dom (collisions t) ∪ list_to_set paths)); [set_solver|set_solver|].
    assert (size (dom (collisions t) ∪ list_to_set paths : gset path) <= size (collisions t) + length paths); [|lia].
    rewrite size_union_alt, size_dom.
    assert (size (list_to_set paths ∖ dom (collisions t) : gset path) <= size (list_to_set paths : gset path))
      by (apply subseteq_size; set_solver).
    assert (size (list_to_set paths : gset path) <= length paths); [|lia].
    clear. induction paths as [|p l IH]; [done|]. cbn [list_to_set length].
    rewrite size_union_alt, size_singleton.
    assert (size (list_to_set l ∖ {[p]} : gset path) <= size (list_to_set l : gset path))
      by (apply subseteq_size; set_solver). lia.
  Qed.

  (** One step of the closure insertion. *)
  Lemma closure_insert_ok (idf : path → Z) (S : gset path) c p :
    clo_ok idf S c →
    (∀ u v, u ∈ S ∪ {[p]} → v ∈ S ∪ {[p]} → idf u = idf v → u = v) →
    (∀ q, q ∈ S → parent q ≠ [] → parent q ∈ S) → p ≠ [] → [] ∉ S →
    (parent p ≠ [] → parent p ∈ S) →
    clo_ok idf (S ∪ {[p]})
      (c ∪ list_to_map (closure_rows c (idf p) (if bool_decide (parent p = []) then idf p else idf (parent p)))).
  Proof.
    clear H salts. intros Hc Hinj HS Hpn HnS Hpar a b k.
    set (parid := if bool_decide (parent p = []) then idf p else idf (parent p)).
    assert (Hpref : ∀ q u, q ∈ S → u `prefix_of` q → u ≠ [] → u ∈ S).
    { intros q. remember (length q) as n eqn:En. revert q En.
      induction n as [|n IH]; intros q En u Hq Hu Hn.
      - destruct q; [|done]. by apply prefix_nil_inv in Hu.
      - destruct (snoc_parent q) as [x Hx]; [by intros ->|].
        rewrite Hx in Hu. apply prefix_snoc_inv in Hu as [Hu| ->]; [|by rewrite <-Hx].
        destruct (decide (parent q = [])) as [E|E]; [rewrite E in Hu; by apply prefix_nil_inv in Hu|].
        apply (IH (parent q)); [|by apply HS|done|done].
        rewrite Hx, app_length in En. simpl in En. lia. }
    assert (Hrow : ∀ a b k, (a, b, k) ∈ closure_rows c (idf p) parid ↔
      (∃ d, c !! (a, parid) = Some d ∧ b = idf p ∧ k = Datatypes.S d) ∨ (a = idf p ∧ b = idf p ∧ k = 0)).
    { clear a b k. intros a b k. unfold closure_rows. rewrite elem_of_app, elem_of_list_singleton, elem_of_list_omap.
      split.
      - intros [([[a' b'] k'] & Hin & E)|E]; [|by right; simplify_eq].
        apply elem_of_map_to_list in Hin. simpl in E. case_bool_decide; [|done]. simplify_eq.
        left. by exists k'.
      - intros [(d & Hd & -> & ->)|(-> & -> & ->)]; [|by right].
        left. exists (a, parid, d). split; [by apply elem_of_map_to_list|]. simpl. by rewrite bool_decide_true. }
    destruct (decide (p ∈ S)) as [HpS|HpS].
    - (* nothing new *)
      assert (S ∪ {[p]} = S) as -> by set_solver. rewrite <-(Hc a b k).
      rewrite lookup_union_Some_raw. split; [|by left].
      intros [?|[Hn E]]; [done|]. apply elem_of_list_to_map_2 in E. apply Hrow in E as [(d & Hd & -> & ->)|(-> & -> & ->)].
      + exfalso. apply Hc in Hd as (u & v & Hu & Hv & -> & Ev & Huv & _).
        assert (u `prefix_of` p) as Hup.
        { unfold parid in Ev. case_bool_decide as Hpp.
          - rewrite (Hinj p v); [done|set_solver|set_solver|done].
          - rewrite <-(Hinj (parent p) v) in Huv; [|set_solver|set_solver|done].
            etrans; [done|apply prefix_parent]. }
        assert (is_Some (c !! (idf u, idf p))) as [? Hx]; [|congruence].
        eexists. apply Hc. by exists u, p.
      + assert (is_Some (c !! (idf p, idf p))) as [? Hx]; [|congruence].
        eexists. apply Hc. by exists p, p.
    - (* a new path *)
      assert (Hnokey : ∀ a, c !! (a, idf p) = None).
      { intros a'. destruct (c !! (a', idf p)) as [d|] eqn:E; [|done].
        apply Hc in E as (u & v & Hu & Hv & -> & Ev & _).
        exfalso. apply HpS. by rewrite (Hinj p v); [|set_solver|set_solver|]. }
      assert (Hanc : ∀ a d, c !! (a, parid) = Some d ↔
         ∃ u, u ∈ S ∧ a = idf u ∧ u `prefix_of` parent p ∧ parent p ≠ [] ∧ d = length (parent p) - length u).
      { intros a' d. unfold parid. case_bool_decide as Hpp.
        - rewrite Hnokey. split; [done|]. by intros (u & _ & _ & _ & ? & _).
        - rewrite (Hc a' (idf (parent p)) d). split.
          + intros (u & v & Hu & Hv & -> & Ev & Huv & ->). specialize (Hpar Hpp).
            assert (v = parent p) as -> by (symmetry; apply Hinj; [set_solver|set_solver|done]).
            exists u. done.
          + intros (u & Hu & -> & Hup & _ & ->). exists u, (parent p). split; [done|]. split; [by apply Hpar|done]. }
      destruct (snoc_parent p Hpn) as [x Hx].
      assert (length p = 1 + length (parent p)) as Hlen.
      { rewrite Hx at 1. rewrite app_length. simpl. lia. }
      rewrite lookup_union_Some_raw. split.
      + intros [E|[Hn E]].
        * apply Hc in E as (u & v & Hu & Hv & ? ). exists u, v. split; [set_solver|]. split; [set_solver|done].
        * apply elem_of_list_to_map_2 in E. apply Hrow in E as [(d & Hd & -> & ->)|(-> & -> & ->)].
          -- apply Hanc in Hd as (u & Hu & -> & Hup & _ & ->). exists u, p.
             split; [set_solver|]. split; [set_solver|]. split; [done|]. split; [done|].
             split; [etrans; [done|apply prefix_parent]|]. pose proof (prefix_length _ _ Hup). lia.
          -- exists p, p. split; [set_solver|]. split; [set_solver|]. repeat split; try done. lia.
      + intros (u & v & Hu & Hv & -> & -> & Huv & ->).
        apply elem_of_union in Hv as [Hv|Hv%elem_of_singleton].
        * left. apply Hc. exists u, v. split; [|done].
          eapply Hpref; [exact Hv|done|]. intros ->. set_solver.
        * subst v. right. split; [apply Hnokey|].
          assert (Hfun : ∀ k', (idf u, idf p, k') ∈ closure_rows c (idf p) parid → k' = length p - length u).
          { intros k' Hin. apply Hrow in Hin as [(d & Hd & _ & ->)|(E & _ & ->)].
            - apply Hanc in Hd as (u' & Hu' & E & Hup & _ & ->).
              assert (u = u') as -> by (apply Hinj; [done|set_solver|done]).
              pose proof (prefix_length _ _ Hup). lia.
            - assert (u = p) as -> by (apply Hinj; [done|set_solver|done]). lia. }
          assert ((idf u, idf p, length p - length u) ∈ closure_rows c (idf p) parid) as Hin.
          { apply Hrow. rewrite Hx in Huv. apply prefix_snoc_inv in Huv as [Huv|E].
            - left. exists (length (parent p) - length u). split; [|split; [done|]].
              + apply Hanc. exists u. apply elem_of_union in Hu as [Hu|Hu%elem_of_singleton].
                * split; [done|]. split; [done|]. split; [done|]. split; [|done].
                  intros E. rewrite E in Huv. apply prefix_nil_inv in Huv as ->. done.
                * subst u. pose proof (prefix_length _ _ Huv). lia.
              + pose proof (prefix_length _ _ Huv). lia.
            - rewrite <-Hx in E. subst u. right. repeat split; try done. lia. }
          apply elem_of_list_to_map_1'; [|done]. intros y Hy. symmetry. by apply Hfun.
  Qed.

  (** The batch gets fresh, distinct ids. *)
  Definition batch_ok t (idf : path → Z) m (paths : list path) : Prop :=
    (∀ p, p ∈ paths → p ∉ dom m → nodes t !! idf p = None) ∧
    (∀ p q, p ∈ paths → p ∉ dom m → q ∈ paths → q ∉ dom m → idf p = idf q → p = q).

  Lemma resolve_ids t m n fuel paths t' n' p :
    repr t m → resolve H salts fuel t n paths = Some (t', n') → p ∈ dom m → pid t' p = pid t p.
  Proof.
    intros R E Hp. apply resolve_spec in E as (_ & _ & E1 & E2 & _). unfold path_id. f_equal.
    destruct (collisions t !! p) as [s|] eqn:Es.
    { by rewrite (lookup_weaken _ _ _ _ Es E1). }
    destruct (collisions t' !! p) as [s|] eqn:Es'; [|done]. exfalso.
    apply E2 in Es' as [?|(_ & _ & _ & q & d & Hnd & Hne)]; [congruence|].
    apply elem_of_dom in Hp as [dp Hp]. apply (r_node _ _ R) in Hp. unfold path_id in Hp.
    rewrite Es in Hp. simpl in Hp. congruence.
  Qed.

  Lemma insert_repr t m n fuel paths t' n' mk :
    repr t m → resolve H salts fuel t n paths = Some (t', n') →
    batch_ok t (pid t') m paths → parents_ok m paths → StronglySorted (PySort.le depth_le) paths →
    repr (Tables (insert_nodes H t' mk paths) (foldl (insert_closure_row H t') (closure t') paths) (collisions t'))
         (s_insert m mk paths).
  Proof.
    intros R E [B1 B2] Hpar Hsort.
    assert (Hids : ∀ p, p ∈ dom m → pid t' p = pid t p) by (intros; by eapply resolve_ids).
    pose proof (resolve_spec _ _ _ _ _ _ E) as (En & Ec & _).
    assert (Hinj : ∀ u v, u ∈ dom m ∪ list_to_set paths → v ∈ dom m ∪ list_to_set paths → pid t' u = pid t' v → u = v).
    { assert (∀ u v, u ∈ dom m → v ∈ paths → v ∉ dom m → pid t' u = pid t' v → u = v) as Hmix.
      { intros u v Hu Hv Hvn Euv. specialize (B1 v Hv Hvn). rewrite <-Euv, Hids in B1 by done.
        apply elem_of_dom in Hu as [d Hu]. apply (r_node _ _ R) in Hu. congruence. }
      intros u v Hu Hv Euv.
      destruct (decide (u ∈ dom m)) as [Hum|Hum], (decide (v ∈ dom m)) as [Hvm|Hvm].
      - rewrite !Hids in Euv by done. by eapply repr_inj.
      - apply Hmix; set_solver.
      - symmetry. apply Hmix; set_solver.
      - apply B2; set_solver. }
    split.
    - (* nodes found *)
      intros p d. rewrite s_insert_lookup. unfold insert_nodes. rewrite En. simpl.
      change (path_id H _ p) with (pid t' p).
      destruct (m !! p) as [d0|] eqn:Ep.
      + intros ?; simplify_eq. apply lookup_union_Some_l. rewrite Hids by by apply elem_of_dom.
        by apply (r_node _ _ R).
      + case_bool_decide as Hp; [|done]. intros ?; simplify_eq.
        assert (p ∉ dom m) as Hpd by by apply not_elem_of_dom.
        rewrite lookup_union_r by by apply B1.
        apply elem_of_list_to_map_1'.
        * intros [q d'] Hin. apply elem_of_list_fmap in Hin as (p' & E' & Hp'). simplify_eq.
          match goal with Hx : pid t' p = pid t' ?q |- _ => assert (p = q) as <- by (apply Hinj; set_solver) end.
          done.
        * apply elem_of_list_fmap. by exists p.
    - (* ids *)
      intros i p d. unfold insert_nodes. rewrite En. simpl.
      change (path_id H _ p) with (pid t' p).
      rewrite lookup_union_Some_raw, s_insert_lookup. intros [Hi|[Hn Hi]].
      + destruct (r_id _ _ R _ _ _ Hi) as [Hm ->]. rewrite Hm. split; [done|].
        symmetry. apply Hids. by apply elem_of_dom.
      + apply elem_of_list_to_map_2, elem_of_list_fmap in Hi as (p' & E' & Hp'). simplify_eq.
        split; [|done]. destruct (m !! p') as [d|] eqn:Ep.
        * rewrite Hids in Hn by by apply elem_of_dom. apply (r_node _ _ R) in Ep. congruence.
        * by rewrite bool_decide_true.
    - (* closure *)
      rewrite dom_s_insert. simpl.
      change (path_id H (Tables _ _ (collisions t'))) with (pid t').
      assert (Hgen : ∀ l2 l1 c, paths = l1 ++ l2 → clo_ok (pid t') (dom m ∪ list_to_set l1) c →
         clo_ok (pid t') (dom m ∪ list_to_set paths) (foldl (insert_closure_row H t') c l2)).
      { intros l2. induction l2 as [|p l2 IH]; intros l1 c El Hc; simpl.
        - rewrite app_nil_r in El. by subst.
        - apply (IH (l1 ++ [p])); [by rewrite <-app_assoc|].
          rewrite list_to_set_app_L. replace (dom m ∪ (list_to_set l1 ∪ list_to_set [p])) with (dom m ∪ list_to_set l1 ∪ {[p]} : gset path) by set_solver.
          assert (Hbefore : ∀ q r, q ∈ l1 ++ [p] → r ∈ paths → length r < length q → r ∈ l1).
          { intros q r Hq Hr Hlen. rewrite El in Hr. apply elem_of_app in Hr as [?|Hr]; [done|]. exfalso.
            assert (length q <= length r) as Hle; [|lia].
            assert (length q <= length p ∧ length p <= length r) as [? ?]; [|lia].
            rewrite El in Hsort. split.
            - apply elem_of_app in Hq as [Hq|Hq%elem_of_list_singleton]; [|by subst].
              clear -Hsort Hq. induction l1 as [|y l1 IH]; [by apply elem_of_nil in Hq|].
              simpl in Hsort. inversion_clear Hsort as [|? ? Hs Hf].
              apply elem_of_cons in Hq as [->|Hq]; [|by apply IH].
              rewrite Forall_forall in Hf. assert (PySort.le depth_le y p) as Hle by (apply Hf; set_solver).
              unfold PySort.le, depth_le in Hle. by apply Nat.leb_le in Hle.
            - apply elem_of_cons in Hr as [->|Hr]; [done|].
              clear -Hsort Hr. induction l1 as [|y l1 IH]; simpl in Hsort; inversion_clear Hsort as [|? ? Hs Hf].
              + rewrite Forall_forall in Hf. specialize (Hf _ Hr). unfold PySort.le, depth_le in Hf. by apply Nat.leb_le in Hf.
              + by apply IH. }
          assert (Hparlt : ∀ q, q ≠ [] → length (parent q) < length q).
          { intros q Hq. destruct (snoc_parent q Hq) as [x Hx]. rewrite Hx at 2. rewrite app_length. simpl. lia. }
          assert (p ∈ paths) as Hpp by (subst; set_solver).
          apply closure_insert_ok; [done| | | | |].
          + intros u v Hu Hv. apply Hinj; subst; set_solver.
          + intros q Hq Hn. apply elem_of_union in Hq as [Hq|Hq%elem_of_list_to_set].
            * apply elem_of_union_l. by apply (r_par _ _ R).
            * destruct (Hpar q) as [Hqn [?|[?|Hq']]]; [subst; set_solver|done| |].
              -- apply elem_of_union_l. by apply elem_of_dom.
              -- apply elem_of_union_r, elem_of_list_to_set. eapply (Hbefore q); [set_solver|done|by apply Hparlt].
          + by apply Hpar.
          + intros Hbad. apply elem_of_union in Hbad as [Hbad|Hbad%elem_of_list_to_set].
            * by apply (r_par _ _ R) in Hbad as [? _].
            * destruct (Hpar []) as [? _]; [subst; set_solver|done].
          + intros Hn. destruct (Hpar p Hpp) as [Hpn [?|[?|Hq']]]; [done| |].
            * apply elem_of_union_l. by apply elem_of_dom.
            * apply elem_of_union_r, elem_of_list_to_set. eapply (Hbefore p); [set_solver|done|by apply Hparlt]. }
      apply (Hgen paths []); [done|]. simpl. rewrite union_empty_r_L, Ec.
      intros a b k. rewrite (r_clo _ _ R a b k). split.
      + intros (p & q & Hp & Hq & -> & -> & ?). exists p, q. rewrite !Hids by done. done.
      + intros (p & q & Hp & Hq & -> & -> & ?). exists p, q. rewrite !Hids by done. done.
    - (* parents *)
      rewrite dom_s_insert. intros p Hp. apply elem_of_union in Hp as [Hp|Hp%elem_of_list_to_set].
      + destruct (r_par _ _ R p Hp) as [? Hq]. split; [done|]. intros Hn. apply elem_of_union_l. by apply Hq.
      + destruct (Hpar p Hp) as [? Hor]. split; [done|]. intros Hn. destruct Hor as [?|[?|?]]; [done| |set_solver].
        apply elem_of_union_l. by apply elem_of_dom.
  Qed.

  Lemma t_add_repr t m n paths mk sd :
    repr t m → parents_ok m paths → StronglySorted (PySort.le depth_le) paths →
    (∀ t' n', resolve H salts (S (length paths)) t n paths = Some (t', n') → batch_ok t (pid t') m paths) →
    ∃ t' n', t_add H salts t n mk sd paths = Some (t', n') ∧ repr t' (s_add m mk sd paths)
      ∧ ∃ t1, resolve H salts (S (length paths)) t n paths = Some (t1, n') ∧ collisions t' = collisions t1.
  Proof.
    intros R Hpar Hsort Hb. destruct (resolve_total t n paths) as [[t1 n'] E].
    specialize (Hb _ _ E). unfold t_add. rewrite E. eexists _, _. split; [done|]. split; [|by exists t1].
    unfold s_add. apply t_upd_repr.
    - by eapply insert_repr.
    - intros p Hp Hn. exfalso. apply elem_of_parents in Hp as (Hpn & q & Hq & ->).
      apply not_elem_of_dom in Hn. apply Hn. rewrite dom_s_insert.
      destruct (Hpar q Hq) as [_ [?|[?|?]]]; [done| |set_solver].
      apply elem_of_union_l. by apply elem_of_dom.
  Qed.

  (** *** Removing *)
  Lemma rm_id_repr t m p :
    repr t m → p ≠ [] → (p ∉ dom m → ∀ q, q ∈ dom m → pid t q ≠ pid t p) →
    repr (rm_id t (pid t p)) (s_rm m [p]).
  Proof.
    intros R Hpn Hna. unfold rm_id.
    set (gone := λ j, bool_decide (is_Some (closure t !! (pid t p, j)) ∧ is_Some (nodes t !! j))).
    assert (Hgone : ∀ q, q ∈ dom m → gone (pid t q) = bool_decide (p `prefix_of` q)).
    { intros q Hq. unfold gone. apply bool_decide_ext. split.
      - intros [[k Hk] _]. apply (r_clo _ _ R) in Hk as (u & v & Hu & Hv & Eu & Ev & Hpre & _).
        apply (repr_inj _ _ _ _ R Hq Hv) in Ev as <-.
        destruct (decide (p ∈ dom m)) as [Hp|Hp].
        + by rewrite (repr_inj _ _ _ _ R Hp Hu Eu).
        + exfalso. by apply (Hna Hp u Hu).
      - intros Hpre. pose proof Hq as [d Hqd]%elem_of_dom. split.
        + eexists. apply (r_clo _ _ R). exists p, q. split; [by eapply repr_prefix|done].
        + eexists. by apply (r_node _ _ R). }
    assert (Hdom : ∀ q, q ∈ dom (s_rm m [p]) ↔ q ∈ dom m ∧ gone (pid t q) = false).
    { intros q. rewrite elem_of_dom_s_rm, Forall_singleton. split.
      - intros [Hq Hn]. split; [done|]. rewrite Hgone by done. by apply bool_decide_eq_false.
      - intros [Hq Hg]. split; [done|]. rewrite Hgone in Hg by done. by apply bool_decide_eq_false in Hg. }
    assert (Hid : ∀ nd cl q, path_id H (Tables (D:=D) nd cl (collisions t)) q = pid t q) by done.
    split; cbn [nodes closure collisions].
    - intros q d Hq. rewrite Hid. apply map_filter_lookup_Some.
      assert (q ∈ dom (s_rm m [p])) as Hqd by by apply elem_of_dom.
      apply s_rm_lookup in Hq as [Hq _]. split; [by apply (r_node _ _ R)|]. change (gone (pid t q) = false). by apply Hdom.
    - intros i q d Hi. rewrite Hid. apply map_filter_lookup_Some in Hi as [Hi Hg].
      destruct (r_id _ _ R _ _ _ Hi) as [Hm ->]. split; [|done]. change (gone (pid t q) = false) in Hg.
      apply s_rm_lookup. split; [done|]. apply Forall_singleton.
      rewrite Hgone in Hg by by apply elem_of_dom. by apply bool_decide_eq_false in Hg.
    - intros a b k. rewrite map_filter_lookup_Some. simpl. rewrite (r_clo _ _ R a b k). split.
      + intros [(u & v & Hu & Hv & -> & -> & Huv & ->) [Ga Gb]]. exists u, v.
        rewrite !Hid. split; [by apply Hdom|]. split; [by apply Hdom|done].
      + intros (u & v & Hu & Hv & -> & -> & Huv & ->). rewrite !Hid in *.
        apply Hdom in Hu as [Hu Ga], Hv as [Hv Gb]. split; [|done]. by exists u, v.
    - intros q Hq. apply elem_of_dom_s_rm in Hq as [Hq Hn]. destruct (r_par _ _ R q Hq) as [? Hp]. split; [done|].
      intros Hpq. apply elem_of_dom_s_rm. split; [by apply Hp|]. rewrite Forall_singleton in *.
      intros Hpre. apply Hn. etrans; [done|apply prefix_parent].
  Qed.

  Lemma s_rm_cons m p ps : s_rm (s_rm m [p]) ps = s_rm m (p :: ps).
  Proof.
    clear H salts. apply map_eq. intros q. apply option_eq. intros d.
    rewrite !s_rm_lookup, Forall_singleton, Forall_cons. tauto.
  Qed.

  Lemma t_rm_repr t m ps :
    repr t m → [] ∉ ps → (∀ p, p ∈ ps → p ∉ dom m → ∀ q, q ∈ dom m → pid t q ≠ pid t p) →
    repr (t_rm H t ps) (s_rm m ps).
  Proof.
    intros R Hn Hna. unfold t_rm.
    assert (Hgen : ∀ l m0 t0, l ⊆ ps → repr t0 m0 → collisions t0 = collisions t →
      (∀ p, p ∈ l → ∀ q, q ∈ dom m0 → pid t q = pid t p → q = p) →
      repr (foldl rm_id t0 (map (pid t) l)) (s_rm m0 l) ∧ collisions (foldl rm_id t0 (map (pid t) l)) = collisions t).
    { intros l. induction l as [|p l IH]; intros m0 t0 Hl R0 Hc Hinj; simpl.
      - split; [|done]. assert (s_rm m0 [] = m0) as ->; [|done].
        apply map_eq. intros q. apply option_eq. intros d. rewrite s_rm_lookup. naive_solver.
      - rewrite <-s_rm_cons.
        assert (Hpid : ∀ q, pid t q = pid t0 q) by (intros q; unfold path_id; by rewrite Hc).
        apply IH; [set_solver| |done|].
        + rewrite Hpid. apply rm_id_repr; [done|set_solver|].
          intros Hp q Hq E. rewrite <-!Hpid in E. apply Hinj in E; [by subst|left|done].
        + intros p' Hp' q Hq. apply elem_of_dom_s_rm in Hq as [Hq _]. apply Hinj; [by right|done]. }
    destruct (Hgen ps m t) as [R1 Hc1]; [done|done|done| |].
    { intros p Hp q Hq E. destruct (decide (p ∈ dom m)) as [Hpm|Hpm].
      - by eapply repr_inj.
      - exfalso. by eapply Hna. }
    set (t1 := foldl rm_id t (map (pid t) ps)) in *.
    set (live := map (λ kv : Z * (path * D), kv.2.1) (map_to_list (nodes t1))).
    set (t2 := Tables (nodes t1) (closure t1) (filter (λ kv : path * str, kv.1 ∈ live) (collisions t1))).
    assert (Hid : ∀ q, q ∈ dom (s_rm m ps) → path_id H t2 q = pid t1 q).
    { intros q [d Hq]%elem_of_dom. unfold path_id, t2. simpl. f_equal. f_equal.
      destruct (collisions t1 !! q) as [s|] eqn:E.
      - apply map_filter_lookup_Some. split; [done|]. simpl. unfold live.
        apply elem_of_list_fmap. exists (pid t1 q, (q, d)). split; [done|].
        apply elem_of_map_to_list. by apply (r_node _ _ R1).
      - apply map_filter_lookup_None. by left. }
    split.
    - intros q d Hq. rewrite Hid by by apply elem_of_dom. by apply (r_node _ _ R1).
    - intros i q d Hi. destruct (r_id _ _ R1 _ _ _ Hi) as [Hm ->]. split; [done|].
      by rewrite Hid by by apply elem_of_dom.
    - intros a b k. change (closure t2) with (closure t1). rewrite (r_clo _ _ R1 a b k). split.
      + intros (u & v & Hu & Hv & -> & -> & ?). exists u, v. rewrite !Hid by done. done.
      + intros (u & v & Hu & Hv & -> & -> & ?). exists u, v. rewrite !Hid by done. done.
    - exact (r_par _ _ R1).
  Qed.
End refine.
