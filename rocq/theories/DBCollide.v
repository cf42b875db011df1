(** Histories under colliding path hashes. *)
From Coq Require Import QArith Qcanon.
From Verif Require Export DBInv.
From stdpp Require Import options.

(** A hash with a drawn salt meets no other hash, salted or not.  Nothing is
    said about collisions between unsalted hashes. *)
Definition salts_fresh (H : path → str → Z) (salts : nat → str) : Prop :=
  ∀ p k q s, (s = [] ∨ ∃ j, s = salts j) → H p (salts k) = H q s → p = q.
(** No two new paths of one batch have the same unsalted hash. *)
Definition batch_distinct {D} (H : path → str → Z) (m : gmap path D) (paths : list path) : Prop :=
  ∀ p q, p ∈ paths → q ∈ paths → p ∉ dom m → q ∉ dom m → H p [] = H q [] → p = q.

Definition lop_coll (H : path → str → Z) (m : gmap path ldata) (o : lop) : Prop :=
  match o with
  | LAdd files dirs _ _ | LAddInflated files dirs => batch_distinct H m (files ++ dirs)
  | LUpdate ps _ _ _ | LIncrement ps _ => ∀ p, p ∈ ps → p ∈ dom m
  | LRm ps => (∀ p, p ∈ ps → p ∈ dom m) ∧ (∀ p q, p ∈ ps → q ∈ ps → ¬ below p q)
  | LAdjust _ => True
  end.
Definition rop_coll (H : path → str → Z) (m : gmap path rdata) (o : rop) : Prop :=
  match o with
  | RAdd files dirs _ => batch_distinct H m (files ++ dirs)
  | RUpdate ps _ _ | RRm ps => ∀ p, p ∈ ps → p ∈ dom m
  end.

Section collide.
  Context (H : path → str → Z) (salts : nat → str) (iter : list path → list path).
  Context (Hs : salts_fresh H salts) (Hiter : ∀ l, iter l ≡ₚ l).

  Definition cgood {D} (t : tables D) (m : gmap path D) : Prop :=
    repr H t m ∧ ∀ p s, collisions t !! p = Some s → p ∈ dom m ∧ ∃ k, s = salts k.

  Lemma cgood_empty {D} : cgood (t_empty (D:=D)) ∅.
  Proof. split; [apply repr_empty|]. intros p s E. simpl in E. by rewrite lookup_empty in E. Qed.

  Lemma cgood_batch {D} (t : tables D) m n paths t' n' fuel :
    cgood t m → batch_distinct H m paths →
    resolve H salts fuel t n paths = Some (t', n') → batch_ok t (path_id H t') m paths.
  Proof using Hs.
    intros [R Hc] Hb E. pose proof E as E0. apply resolve_spec in E as (En & Ecl & Esub & E2 & E3).
    assert (∀ p s, p ∉ dom m → collisions t' !! p = Some s → ∃ k, s = salts k) as Hnew.
    { intros p s Hp Hps. apply E2 in Hps as [Hps|(_ & _ & ? & _)]; [|done]. by apply Hc in Hps as [? _]. }
    split.
    - intros p Hin Hp. destruct (nodes t !! path_id H t' p) as [[q d]|] eqn:Eq; [|done]. exfalso.
      pose proof Eq as Eq'. apply (r_id _ _ _ R) in Eq' as [Hq Ei].
      assert (q ≠ p) as Hne by (intros ->; apply Hp; by apply elem_of_dom).
      destruct (E3 p q d Hin Eq Hne) as [s Hps]. destruct (Hnew p s Hp Hps) as [k ->].
      unfold path_id in Ei at 1. rewrite Hps in Ei. simpl in Ei. unfold path_id in Ei.
      apply Hs in Ei; [by apply Hne|].
      destruct (collisions t !! q) as [s'|] eqn:Es; simpl; [|by left]. right. by apply Hc in Es as [_ ?].
    - intros p q Hpi Hp Hqi Hq Ei. unfold path_id in Ei.
      destruct (collisions t' !! p) as [s|] eqn:Ep, (collisions t' !! q) as [s'|] eqn:Eq; simpl in Ei.
      + destruct (Hnew p s Hp Ep) as [k ->], (Hnew q s' Hq Eq) as [k' ->]. apply Hs in Ei; [done|]. right. eauto.
      + destruct (Hnew p s Hp Ep) as [k ->]. apply Hs in Ei; [done|]. by left.
      + destruct (Hnew q s' Hq Eq) as [k' ->]. symmetry in Ei. apply Hs in Ei; [done|]. by left.
      + by apply Hb.
  Qed.
  Lemma cgood_t_add {D} (t : tables D) m n mk sd files dirs :
    cgood t m → (∀ d, sd (sd d) = sd d) → parents_ok m (files ++ dirs) → batch_distinct H m (files ++ dirs) →
    ∃ t' n', t_add H salts t n mk sd (add_order iter files dirs) = Some (t', n')
      ∧ cgood t' (s_add m mk sd (files ++ dirs)).
  Proof using Hs Hiter.
    intros G Hsd Hp Hb. pose proof (add_order_elem iter Hiter files dirs) as Hel.
    destruct (t_add_repr H salts t m n (add_order iter files dirs) mk sd) as (t' & n' & E & R & t1 & E1 & Ec).
    - apply G.
    - intros p. rewrite Hel. intros Hin. destruct (Hp p Hin) as [? Hor]. split; [done|]. by rewrite Hel.
    - apply depth_le_sorted.
    - intros t1 n1 E. eapply cgood_batch; [done| |done].
      intros p q Hpi Hqi. rewrite Hel in Hpi, Hqi. by apply Hb.
    - exists t', n'. split; [done|]. split.
      + rewrite (s_add_ext m mk sd (files ++ dirs) (add_order iter files dirs)); [done| |done].
        intros p. by rewrite Hel.
      + intros p s Hps. rewrite Ec in Hps. apply resolve_spec in E1 as (_ & _ & _ & E2 & _).
        rewrite dom_s_add, elem_of_union, elem_of_list_to_set.
        apply E2 in Hps as [Hps|(_ & Hin & Hk & _)].
        * apply G in Hps as [? ?]. by split; [left|].
        * rewrite Hel in Hin. by split; [right|].
  Qed.
  Lemma cgood_known {D} (t : tables D) m p : cgood t m → p ∈ dom m → m !! p = None → nodes t !! path_id H t p = None.
  Proof. intros _ Hp Hn. by apply not_elem_of_dom in Hn. Qed.
  Lemma cgood_t_upd {D} (t : tables D) m f ps :
    cgood t m → (∀ p, p ∈ ps → p ∈ dom m) → cgood (t_upd H t f ps) (s_upd m f ps).
  Proof.
    intros G Hps. split.
    - apply t_upd_repr; [apply G|]. intros p Hp. apply cgood_known; [done|by apply Hps].
    - rewrite dom_s_upd. apply G.
  Qed.
  Lemma cgood_t_recompute {D} (t : tables D) m g ps :
    (∀ l l' d, l ≡ₚ l' → g l d = g l' d) → cgood t m → (∀ p, p ∈ ps → p ∈ dom m) →
    cgood (t_recompute H t g ps) (s_recompute m g ps).
  Proof.
    intros Hg G Hps. split.
    - apply t_recompute_repr; [done|apply G|]. intros p Hp. apply cgood_known; [done|].
      apply elem_of_ancestry in Hp as (Hn & q & Hq & Hpre). eapply repr_prefix; [apply G|by apply Hps|done|done].
    - rewrite dom_s_recompute, t_recompute_collisions. apply G.
  Qed.
  Lemma cgood_refresh t m ps :
    cgood t m → (∀ p, p ∈ ps → p ∈ dom m) → cgood (l_refresh H t ps) (sl_refresh m ps).
  Proof.
    intros G Hps. unfold l_refresh, sl_refresh.
    apply cgood_t_recompute; [intros; by apply g_local_perm| |by rewrite dom_s_recompute].
    apply cgood_t_recompute; [intros; by apply g_prio_perm|done|done].
  Qed.
  Lemma parents_known {D} (t : tables D) m ps :
    cgood t m → (∀ p, p ∈ ps → p ∈ dom m) → ∀ p, p ∈ parents ps → p ∈ dom m.
  Proof.
    intros [R _] Hps p Hp. apply elem_of_parents in Hp as (Hn & q & Hq & ->).
    destruct (r_par _ _ _ R q (Hps q Hq)) as [_ Hpar]. by apply Hpar.
  Qed.
  Lemma cgood_t_rm {D} (t : tables D) m ps :
    cgood t m → [] ∉ ps → (∀ p, p ∈ ps → p ∈ dom m) → cgood (t_rm H t ps) (s_rm m ps).
  Proof.
    intros [R Hc] Hn Hps.
    assert (repr H (t_rm H t ps) (s_rm m ps)) as R'.
    { apply t_rm_repr; [done|done|]. intros p Hp Hpd. by apply Hps in Hp. }
    split; [done|]. intros p s Hp. unfold t_rm in Hp. cbn [collisions] in Hp.
    apply map_filter_lookup_Some in Hp as [Hp Hl]. split.
    - simpl in Hl. apply elem_of_list_fmap in Hl as ([i [q d]] & -> & Hin).
      apply elem_of_map_to_list in Hin. simpl. apply elem_of_dom. exists d.
      apply (r_id _ _ _ R' i q d). exact Hin.
    - assert (collisions (foldl rm_id t (map (path_id H t) ps)) = collisions t) as Hcc.
      { generalize (map (path_id H t) ps) as l. intros l. clear. revert t.
        induction l as [|i l IH]; intros t; simpl; [done|]. by rewrite IH. }
      rewrite Hcc in Hp. by apply Hc in Hp as [_ ?].
  Qed.
  Lemma cgood_l_add t m n files dirs prio local :
    cgood t m → parents_ok m (files ++ dirs) → batch_distinct H m (files ++ dirs) →
    ∃ t' n', l_add H salts iter t n files dirs prio local = Some (t', n')
      ∧ cgood t' (sl_add m files dirs prio local).
  Proof using Hs Hiter.
    intros G Hp Hb. unfold l_add.
    destruct (cgood_t_add t m n (λ p, LData (bool_decide (p ∈ dirs)) prio local) (set_ldir true) files dirs G)
      as (t' & n' & -> & G'); [done|done|done|].
    eexists _, _. split; [done|]. unfold sl_add.
    assert (∀ p, p ∈ parents (files ++ dirs) ↔ p ∈ parents (add_order iter files dirs)) as Hpar.
    { apply parents_ext. intros p. by rewrite add_order_elem. }
    assert (sl_refresh (s_add m (λ p, LData (bool_decide (p ∈ dirs)) prio local) (set_ldir true) (files ++ dirs))
              (parents (files ++ dirs))
            = sl_refresh (s_add m (λ p, LData (bool_decide (p ∈ dirs)) prio local) (set_ldir true) (files ++ dirs))
              (parents (add_order iter files dirs))) as ->.
    { unfold sl_refresh. rewrite (s_recompute_ext _ g_prio _ _ Hpar). by apply s_recompute_ext. }
    apply cgood_refresh; [done|]. intros p Hin. rewrite dom_s_add. apply Hpar, elem_of_parents in Hin as (Hn & q & Hq & ->).
    destruct (Hp q Hq) as [_ [?|[?|?]]]; [done| |].
    - apply elem_of_union_l. by apply elem_of_dom.
    - apply elem_of_union_r. by apply elem_of_list_to_set.
  Qed.
  Lemma cnodes_perm {D} (t : tables D) m :
    cgood t m → map (λ kv, kv.2.2) (map_to_list (nodes t)) ≡ₚ map snd (map_to_list m).
  Proof.
    intros [R _].
    assert (map (λ kv : Z * (path * D), kv.2.2) (map_to_list (nodes t))
            = map snd (map (λ kv : Z * (path * D), kv.2) (map_to_list (nodes t)))) as ->.
    { by rewrite map_map. }
    apply Permutation_map. apply NoDup_Permutation.
    - apply NoDup_fmap_2_strong; [|apply NoDup_map_to_list].
      intros [i [p d]] [j [q e]] Hi Hj E. simplify_eq/=.
      apply elem_of_map_to_list in Hi, Hj.
      apply (r_id _ _ _ R) in Hi as [_ ->]. apply (r_id _ _ _ R) in Hj as [_ ->]. done.
    - apply NoDup_map_to_list.
    - intros [p d]. rewrite elem_of_list_fmap, elem_of_map_to_list. split.
      + intros ([i [q e]] & E & Hin). simplify_eq/=. apply elem_of_map_to_list in Hin.
        by apply (r_id _ _ _ R) in Hin as [? _].
      + intros Hp. exists (path_id H t p, (p, d)). split; [done|].
        apply elem_of_map_to_list. by apply (r_node _ _ _ R).
  Qed.
  Lemma cgood_l_step t m n o :
    cgood t m → lop_ok m o → lop_coll H m o →
    match sl_step m o with
    | Some m' => ∃ t' n', l_step H salts iter (t, n) o = Some (t', n') ∧ cgood t' m'
    | None => l_step H salts iter (t, n) o = None
    end.
  Proof using Hs Hiter.
    intros G Hok Hcl. destruct o as [files dirs prio local|files dirs|ps dir prio local|ps|ps q|q]; simpl in *.
    - by apply cgood_l_add.
    - unfold sl_add_inflated, l_add_inflated, sl_max.
      rewrite (max_prio_perm _ _ (cnodes_perm t m G)).
      destruct (max_prio _) as [q|]; [by apply cgood_l_add|].
      case_bool_decide; [|done].
      destruct (cgood_l_add t m n [] [] 0%Qc true G) as (t' & n' & E & G').
      + intros p Hp. by apply elem_of_nil in Hp.
      + intros p q Hp. by apply elem_of_nil in Hp.
      + rewrite sl_add_nil in G'. eauto.
    - eexists _, _. split; [done|]. unfold l_update, sl_update. apply cgood_refresh.
      + apply cgood_t_upd; [|by rewrite !dom_s_upd]. apply cgood_t_upd; [|by rewrite !dom_s_upd]. by apply cgood_t_upd.
      + rewrite !dom_s_upd. by eapply parents_known.
    - eexists _, _. split; [done|]. unfold l_rm, sl_rm. destruct Hcl as [Hcl Hanti].
      apply cgood_refresh; [by apply cgood_t_rm|].
      intros p Hp. pose proof (parents_known t m ps G Hcl p Hp) as Hpm.
      apply elem_of_dom_s_rm. split; [done|]. apply Forall_forall. intros r Hr Hpre.
      apply elem_of_parents in Hp as (Hpn & q & Hq & ->).
      apply (Hanti q r Hq Hr). assert (q ≠ []) as Hqn by (intros ->; done).
      destruct (snoc_parent q Hqn) as [x Hx]. destruct Hpre as [k Hk]. rewrite Hk in Hx. rewrite Hx, <-app_assoc.
      destruct k as [|y k]; simpl; [by exists x, []|]. by eexists _, _.
    - eexists _, _. split; [done|]. unfold l_increment, sl_increment.
      apply cgood_t_recompute; [intros; by apply g_prio_perm|by apply cgood_t_upd|].
      rewrite dom_s_upd. by eapply parents_known.
    - eexists _, _. split; [done|]. unfold l_adjust, sl_adjust. destruct G as [R Ec]. split.
      + apply (repr_same_keys H t m); [done|apply dom_fmap_L| |].
        * intros p d. rewrite lookup_fmap. intros (d0 & Hd & ->)%fmap_Some.
          by rewrite lookup_fmap, (r_node _ _ _ R _ _ Hd).
        * intros i p d. rewrite lookup_fmap. intros ([p0 d0] & Hd & E)%fmap_Some. simplify_eq/=.
          destruct (r_id _ _ _ R _ _ _ Hd) as [Hm ->]. by rewrite lookup_fmap, Hm.
      + rewrite dom_fmap_L. exact Ec.
  Qed.
  Lemma cgood_l_run os : ∀ t m n, cgood t m → run_ok sl_step (λ m o, lop_ok m o ∧ lop_coll H m o) m os →
    match run sl_step m os with
    | Some m' => ∃ t' n', run (l_step H salts iter) (t, n) os = Some (t', n') ∧ cgood t' m'
    | None => run (l_step H salts iter) (t, n) os = None
    end.
  Proof using Hs Hiter.
    induction os as [|o os IH]; intros t m n G Hok; cbn [run]; [eauto|].
    destruct Hok as [[Ho Hc] Hok]. pose proof (cgood_l_step t m n o G Ho Hc) as Hst.
    destruct (sl_step m o) as [m'|]; [|by rewrite Hst].
    destruct Hst as (t' & n' & -> & G'). by apply IH, Hok.
  Qed.
  Lemma cgood_r_step t m n o :
    cgood t m → rop_ok m o → rop_coll H m o →
    ∃ m' t' n', sr_step m o = Some m' ∧ r_step H salts iter (t, n) o = Some (t', n') ∧ cgood t' m'.
  Proof using Hs Hiter.
    intros G Hok Hcl. destruct o as [files dirs now|ps dir last|ps]; simpl in *.
    - destruct (cgood_t_add t m n (λ p, RData (bool_decide (p ∈ dirs)) now) (set_rdir true) files dirs G)
        as (t' & n' & E & G'); [done|done|done|]. unfold r_add. rewrite E. by eexists _, _, _.
    - eexists _, _, _. split; [done|]. split; [done|].
      apply cgood_t_upd; [by apply cgood_t_upd|by rewrite dom_s_upd].
    - eexists _, _, _. split; [done|]. split; [done|]. by apply cgood_t_rm.
  Qed.
  Lemma cgood_r_run os : ∀ t m n, cgood t m → run_ok sr_step (λ m o, rop_ok m o ∧ rop_coll H m o) m os →
    ∃ m' t' n', run sr_step m os = Some m' ∧ run (r_step H salts iter) (t, n) os = Some (t', n') ∧ cgood t' m'.
  Proof using Hs Hiter.
    induction os as [|o os IH]; intros t m n G Hok; cbn [run]; [by eexists _, _, _|].
    destruct Hok as [[Ho Hc] Hok].
    destruct (cgood_r_step t m n o G Ho Hc) as (m' & t' & n' & E1 & E2 & G'). rewrite E1, E2.
    by apply IH; [|apply Hok].
  Qed.
  Lemma cgood_query {D} (t : tables D) m root P :
    cgood t m → (∀ r, root = Some r → r ≠ [] → r ∈ dom m) → t_query H t root P = s_query m root P.
  Proof.
    intros [R _] Hr. apply t_query_repr; [done|]. intros r E Hn q Hq Ei. eapply repr_inj; [done|by apply Hr|done|done].
  Qed.
End collide.
