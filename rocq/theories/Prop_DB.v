(** Property theorems C11-C17 and C68. *)
From Coq Require Import QArith Qcanon.
From Verif Require Import DBDec.
From stdpp Require Import options.

(** An injective hash for the examples. *)
Definition h_inj (p : path) (s : str) : Z := Zpos (encode (p, s)).
Lemma h_inj_cf : collision_free h_inj.
Proof. intros p q E. injection E as E. apply (inj encode) in E. congruence. Qed.
Definition some_salts (n : nat) : str := [N.of_nat n + 1]%N.
Local Notation pa := [lit "a"].
Local Notation pab := [lit "a"; lit "b"].
Local Notation pac := [lit "a"; lit "c"].
Local Notation pd := [lit "d"].
Local Notation pe := [lit "e"].

Lemma fmap_witness {S X} (f : S → X) (r : option S) v : f <$> r = Some v → ∃ s, r = Some s ∧ f s = v.
Proof. destruct r as [s|]; intros E; [|done]. exists s. split; [done|]. by injection E. Qed.
Ltac witness r f v :=
  let W := fresh "W" in
  assert (f <$> r = Some v) as W by (vm_compute; reflexivity);
  apply fmap_witness in W; destruct W as ([t n] & Er & Ev);
  exists t, n.

Lemma tree_child {D} (m : gmap path D) p q :
  tree_ok m → q ∈ dom m → p ≠ [] → below q p → ∃ c, child_of c p ∧ c ∈ dom m.
Proof.
  intros Ht Hq Hp Hb. remember (length q) as n eqn:En. revert q En Hq Hb.
  induction n as [|n IH]; intros q En Hq (x & l & ->); [rewrite app_length in En; simpl in En; lia|].
  destruct l as [|y l _] using rev_ind; [by exists (p ++ [x]); split; [eexists|]|].
  destruct (Ht _ Hq) as [_ Hpar]. rewrite app_comm_cons, app_assoc in Hpar. rewrite parent_snoc in Hpar.
  apply (IH (p ++ x :: l)).
  - rewrite app_comm_cons, app_assoc, app_length in En. simpl in En. lia.
  - apply Hpar. by destruct p.
  - by eexists _, _.
Qed.

Lemma parent_below (s p : path) : s ≠ [] → p `prefix_of` parent s → below s p.
Proof.
  intros Hs [k Hk]. destruct (snoc_parent s Hs) as [x Hx]. rewrite Hk, <-app_assoc in Hx. rewrite Hx.
  destruct k as [|y k]; by eexists _, _.
Qed.

(** ** C11 The local database is a tree map.
    [m] is what the operations make of an empty map ([DBSpec]); the tables
    answer like it, and fail only where it is undefined. *)
Theorem C11_local_db_tree_map H salts iter os :
  collision_free H → (∀ l, iter l ≡ₚ l) → run_ok sl_step lop_ok ∅ os →
  match run sl_step ∅ os with
  | Some m => ∃ t n, run (l_step H salts iter) (t_empty, 0) os = Some (t, n)
      ∧ (∀ p, t_info H t p = m !! p)
      ∧ (∀ root dir local p d, l_get_paths H t root dir local !! p = Some d ↔
           m !! p = Some d ∧ default [] root `prefix_of` p
           ∧ (∀ b, dir = Some b → ld_dir d = b) ∧ (∀ b, local = Some b → ld_local d = b))
  | None => run (l_step H salts iter) (t_empty, 0) os = None
  end.
Proof.
  intros Hcf Hi Hok. pose proof (good_l_run H salts iter Hcf Hi os t_empty ∅ 0 (good_empty H) Hok) as Hr.
  destruct (run sl_step ∅ os) as [m|]; [|done]. destruct Hr as (t & n & E & G).
  exists t, n. split; [done|]. split.
  - intros p. apply t_info_repr; [apply G|by apply good_no_alias].
  - intros root dir local p d. unfold l_get_paths. rewrite (good_queries H Hcf t m root _ G), s_query_lookup.
    rewrite andb_true_iff. unfold opt_eqb.
    assert (∀ o b, (match o with None => true | Some b' => Bool.eqb b b' end) = true ↔ ∀ b', o = Some b' → b = b') as He.
    { intros [o|] b; [rewrite eqb_true_iff; naive_solver|naive_solver]. }
    rewrite !He. naive_solver.
Qed.
Print Assumptions C11_local_db_tree_map.

(** What each operation does to the map. *)
Theorem C11_known_paths (m m' : gmap path ldata) o p :
  sl_step m o = Some m' →
  p ∈ dom m' ↔ match o with
    | LAdd files dirs _ _ | LAddInflated files dirs => p ∈ dom m ∨ p ∈ files ∨ p ∈ dirs
    | LRm ps => p ∈ dom m ∧ ∀ q, q ∈ ps → ¬ q `prefix_of` p
    | _ => p ∈ dom m
    end.
Proof.
  assert (∀ files dirs q b, p ∈ dom (sl_add m files dirs q b) ↔ p ∈ dom m ∨ p ∈ files ∨ p ∈ dirs) as Ha.
  { intros. unfold sl_add, sl_refresh. rewrite !dom_s_recompute, dom_s_add. set_solver. }
  intros E. destruct o as [files dirs prio local|files dirs|ps dir prio local|ps|ps q|q]; simpl in E.
  - simplify_eq. apply Ha.
  - unfold sl_add_inflated in E. destruct (sl_max m); [simplify_eq; apply Ha|].
    case_bool_decide as Hn; [|done]. simplify_eq. apply app_eq_nil in Hn as [-> ->]. set_solver.
  - simplify_eq. unfold sl_update, sl_refresh. by rewrite !dom_s_recompute, !dom_s_upd.
  - simplify_eq. unfold sl_rm, sl_refresh. rewrite !dom_s_recompute, elem_of_dom_s_rm, Forall_forall. done.
  - simplify_eq. unfold sl_increment. by rewrite dom_s_recompute, dom_s_upd.
  - simplify_eq. unfold sl_adjust. by rewrite dom_fmap_L.
Qed.
Print Assumptions C11_known_paths.

(** Rows without children are changed only by what the operation says about
    them. *)
Theorem C11_leaf_rows (m m' : gmap path ldata) o p :
  tree_ok m → lop_ok m o → sl_step m o = Some m' →
  match o with
  | LUpdate ps _ _ _ | LRm ps => ∀ q, q ∈ ps → q ∈ dom m
  | LIncrement ps _ => NoDup ps ∧ ∀ q, q ∈ ps → q ∈ dom m
  | _ => True
  end →
  (∀ c, child_of c p → c ∉ dom m ∧ c ∉ dom m') → p ∈ dom m' →
  m' !! p = match o with
    | LAdd files dirs prio local =>
        match m !! p with Some d => Some d | None => Some (LData (bool_decide (p ∈ dirs)) prio local) end
    | LAddInflated files dirs =>
        match m !! p with
        | Some d => Some d
        | None => (λ q, LData (bool_decide (p ∈ dirs)) q true) <$> sl_max m
        end
    | LUpdate ps dir prio local =>
        if bool_decide (p ∈ ps)
        then (λ d, LData (default (ld_dir d) dir) (default (ld_prio d) prio) (default (ld_local d) local)) <$> m !! p
        else m !! p
    | LRm ps => m !! p
    | LIncrement ps q =>
        if bool_decide (p ∈ ps) then (λ d, LData (ld_dir d) (ld_prio d + q)%Qc (ld_local d)) <$> m !! p else m !! p
    | LAdjust q => (λ d, LData (ld_dir d) (ld_prio d * q)%Qc (ld_local d)) <$> m !! p
    end.
Proof.
  intros Ht Hok E Hk Hc Hp.
  assert (∀ files dirs q b, p ∈ dom (sl_add m files dirs q b) → parents_ok m (files ++ dirs) →
     (∀ c, child_of c p → c ∉ dom m ∧ c ∉ dom (sl_add m files dirs q b)) →
     sl_add m files dirs q b !! p =
        match m !! p with Some d => Some d | None => Some (LData (bool_decide (p ∈ dirs)) q b) end) as Ha.
  { clear E Hk Hc Hp Hok. intros files dirs q b Hp Hpar Hc.
    assert (dom (sl_add m files dirs q b) = dom m ∪ list_to_set (files ++ dirs)) as Hd.
    { unfold sl_add, sl_refresh. by rewrite !dom_s_recompute, dom_s_add. }
    assert (p ≠ []) as Hpn.
    { intros ->. rewrite Hd, elem_of_union, elem_of_list_to_set in Hp. destruct Hp as [Hp|Hp].
      - by apply Ht in Hp as [? _].
      - by apply Hpar in Hp as [? _]. }
    assert (p ∉ ancestry (parents (files ++ dirs))) as Hna.
    { intros Hin. apply elem_of_ancestry in Hin as (_ & r & Hr & Hpre).
      apply elem_of_parents in Hr as (Hrn & s & Hs & ->).
      assert (tree_ok (sl_add m files dirs q b)) as Ht'.
      { intros r. rewrite Hd. rewrite !elem_of_union, !elem_of_list_to_set. intros [Hr|Hr].
        - apply Ht in Hr as [? Hr']. split; [done|]. auto.
        - apply Hpar in Hr as [? Hr']. split; [done|]. rewrite elem_of_dom. intuition done. }
      assert (s ∈ dom (sl_add m files dirs q b)) as Hsd.
      { rewrite Hd. apply elem_of_union_r. by apply elem_of_list_to_set. }
      destruct (tree_child _ p s Ht' Hsd Hpn) as (c & Hcc & Hcd).
      { destruct (Hpar s Hs) as [Hsn _]. by apply parent_below. }
      by destruct (Hc c Hcc). }
    unfold sl_add, sl_refresh.
    rewrite s_recompute_spec, bool_decide_false by done.
    rewrite s_recompute_spec, bool_decide_false by done.
    unfold s_add. rewrite s_upd_other, s_insert_lookup.
    - destruct (m !! p) as [d|] eqn:Em; [done|]. rewrite bool_decide_true; [done|].
      rewrite Hd, elem_of_union, elem_of_list_to_set in Hp. destruct Hp as [Hp|Hp]; [|done].
      by apply elem_of_dom in Hp as [? ?]; simplify_eq.
    - intros Hin. apply Hna. by apply parents_anc. }
  assert (∀ ps, (∀ q, q ∈ ps → q ∈ dom m) → p ≠ [] → p ∉ ancestry (parents ps)) as Hna.
  { intros ps Hps Hpn Hin. apply elem_of_ancestry in Hin as (_ & r & Hr & Hpre).
    apply elem_of_parents in Hr as (Hrn & s & Hs & ->).
    destruct (tree_child m p s Ht (Hps s Hs) Hpn) as (c & Hcc & Hcd).
    { destruct (Ht s (Hps s Hs)) as [Hsn _]. by apply parent_below. }
    by destruct (Hc c Hcc). }
  destruct o as [files dirs prio local|files dirs|ps dir prio local|ps|ps q|q]; simpl in E; simpl in Hok.
  - simplify_eq. by apply Ha.
  - unfold sl_add_inflated in E. destruct (sl_max m) as [q|]; [simplify_eq; by apply Ha|].
    case_bool_decide; [|done]. simplify_eq. by apply elem_of_dom in Hp as [d ->].
  - injection E as <-. unfold sl_update, sl_refresh in Hp. rewrite !dom_s_recompute, !dom_s_upd in Hp.
    pose proof (Hna ps Hk (proj1 (Ht p Hp))) as Hnp.
    unfold sl_update, sl_refresh. do 2 rewrite s_recompute_spec, bool_decide_false by done.
    rewrite s_upd_lookup by (left; by destruct local).
    rewrite s_upd_lookup by (left; by destruct prio).
    rewrite s_upd_lookup by (left; by destruct dir).
    case_bool_decide; [|done]. destruct (m !! p) as [[]|]; [|done].
    by destruct dir, prio, local.
  - injection E as <-. unfold sl_rm, sl_refresh in Hp. rewrite !dom_s_recompute in Hp.
    apply elem_of_dom_s_rm in Hp as [Hp Hf].
    pose proof (Hna ps Hk (proj1 (Ht p Hp))) as Hnp.
    unfold sl_rm, sl_refresh. do 2 rewrite s_recompute_spec, bool_decide_false by done.
    apply elem_of_dom in Hp as [d Hd]. rewrite Hd. by apply s_rm_lookup.
  - injection E as <-. destruct Hk as [Hnd Hk]. unfold sl_increment in Hp. rewrite dom_s_recompute, dom_s_upd in Hp.
    pose proof (Hna ps Hk (proj1 (Ht p Hp))) as Hnp.
    unfold sl_increment. rewrite s_recompute_spec, bool_decide_false by done.
    rewrite s_upd_lookup by (by right). done.
  - injection E as <-. unfold sl_adjust. by rewrite lookup_fmap.
Qed.
Print Assumptions C11_leaf_rows.

Definition ex_ops : list lop :=
  [LAdd [pab] [pa] (Q2Qc 2) true; LAdd [pac; pd] [] (Q2Qc 5) false; LUpdate [pab] None (Some (Q2Qc 3)) None;
   LIncrement [pd] (Q2Qc 1); LAdjust (Q2Qc 2); LAddInflated [pe] []; LRm [pac]].
Definition show (d : ldata) : bool * Q * bool := (ld_dir d, this (ld_prio d), ld_local d).
Lemma ex_ops_ok : run_ok sl_step (λ m o, lop_ok m o ∧ lop_keep m o) ∅ ex_ops.
Proof. apply (bool_decide_unpack _). vm_compute. exact I. Qed.
Lemma ex_ops_ok1 : run_ok sl_step lop_ok ∅ ex_ops.
Proof. apply (bool_decide_unpack _). vm_compute. exact I. Qed.
(** The history meets the hypotheses; the tables hold what one expects. *)
Example C11_example :
  run_ok sl_step lop_ok ∅ ex_ops ∧ collision_free h_inj ∧
  ∃ t n, run (l_step h_inj some_salts id) (t_empty, 0) ex_ops = Some (t, n)
    ∧ map (λ p, show <$> t_info h_inj t p) [pa; pab; pac; pd; pe]
      = [Some (true, 6 # 1, true); Some (false, 6 # 1, true); None;
         Some (false, 12 # 1, false); Some (false, 12 # 1, true)]
    ∧ map fst (map_to_list (l_get_paths h_inj t (Some pa) (Some false) None)) = [pab].
Proof.
  split; [apply ex_ops_ok1|]. split; [apply h_inj_cf|].
  witness (run (l_step h_inj some_salts id) (t_empty, 0) ex_ops) (λ tn : tables ldata * nat, (map (λ p, show <$> t_info h_inj tn.1 p) [pa; pab; pac; pd; pe], map fst (map_to_list (l_get_paths h_inj tn.1 (Some pa) (Some false) None)))) ([Some (true, 6 # 1, true); Some (false, 6 # 1, true); None; Some (false, 12 # 1, false); Some (false, 12 # 1, true)], [pab]).
  split; [exact Er|]. by apply pair_equal_spec in Ev.
Qed.

(** ** C12 The remote database is a tree map. *)
Theorem C12_remote_db_tree_map H salts iter os :
  collision_free H → (∀ l, iter l ≡ₚ l) → run_ok sr_step rop_ok ∅ os →
  ∃ m t n, run sr_step ∅ os = Some m ∧ run (r_step H salts iter) (t_empty, 0) os = Some (t, n)
    ∧ (∀ p, t_info H t p = m !! p)
    ∧ (∀ root dir since p d, r_get_paths H t root dir since !! p = Some d ↔
         m !! p = Some d ∧ default [] root `prefix_of` p
         ∧ (∀ b, dir = Some b → rd_dir d = b) ∧ (∀ z, since = Some z → (z < rd_last d)%Z)).
Proof.
  intros Hcf Hi Hok.
  destruct (good_r_run H salts iter Hcf Hi os t_empty ∅ 0 (good_empty H) Hok) as (m & t & n & E1 & E2 & G).
  exists m, t, n. split; [done|]. split; [done|]. split.
  - intros p. apply t_info_repr; [apply G|by apply good_no_alias].
  - intros root dir since p d. unfold r_get_paths. rewrite (good_queries H Hcf t m root _ G), s_query_lookup.
    rewrite andb_true_iff. unfold opt_eqb.
    assert (∀ o b, (match o with None => true | Some b' => Bool.eqb b b' end) = true ↔ ∀ b', o = Some b' → b = b') as He.
    { intros [o|] b; [rewrite eqb_true_iff; naive_solver|naive_solver]. }
    rewrite He.
    assert ((match since with None => true | Some z => bool_decide (z < rd_last d)%Z end) = true
            ↔ ∀ z, since = Some z → (z < rd_last d)%Z) as ->; [|naive_solver].
    destruct since as [z|]; [|naive_solver]. rewrite bool_decide_eq_true. naive_solver.
Qed.
Print Assumptions C12_remote_db_tree_map.

(** What each operation does to the map. *)
Theorem C12_rows (m m' : gmap path rdata) o p :
  sr_step m o = Some m' →
  m' !! p = match o with
    | RAdd files dirs now =>
        let has_sub := bool_decide (p ≠ [] ∧ Exists (λ q, child_of q p) (files ++ dirs)) in
        match m !! p with
        | Some d => Some (RData (has_sub || rd_dir d) (rd_last d))
        | None => if bool_decide (p ∈ files ++ dirs) then Some (RData (has_sub || bool_decide (p ∈ dirs)) now) else None
        end
    | RUpdate ps dir last =>
        if bool_decide (p ∈ ps)
        then (λ d, RData (default (rd_dir d) dir) (default (rd_last d) last)) <$> m !! p else m !! p
    | RRm ps => if bool_decide (Exists (λ q, q `prefix_of` p) ps) then None else m !! p
    end.
Proof.
  intros E. destruct o as [files dirs now|ps dir last|ps]; simpl in E; injection E as <-.
  - unfold sr_add, s_add. rewrite s_upd_lookup by by left. rewrite s_insert_lookup.
    assert (bool_decide (p ∈ parents (files ++ dirs))
            = bool_decide (p ≠ [] ∧ Exists (λ q, child_of q p) (files ++ dirs))) as ->.
    { apply bool_decide_ext. rewrite elem_of_parents, Exists_exists. split.
      - intros (Hp & q & Hq & ->). split; [done|]. exists q. split; [done|]. apply child_parent.
        split; [intros ->; by apply Hp|done].
      - intros (Hp & q & Hq & Hc). split; [done|]. exists q. split; [done|]. by apply child_parent in Hc as [_ <-]. }
    destruct (bool_decide (p ≠ [] ∧ _)); destruct (m !! p) as [[]|]; simpl; try done;
      by destruct (bool_decide (p ∈ files ++ dirs)).
  - unfold sr_update. rewrite s_upd_lookup by (left; by destruct last).
    rewrite s_upd_lookup by (left; by destruct dir).
    case_bool_decide; [|done]. destruct (m !! p) as [[]|]; [|done]. by destruct dir, last.
  - unfold sr_rm. apply option_eq. intros d. rewrite s_rm_lookup.
    case_bool_decide as He.
    + split; [|done]. intros [_ Hf]. rewrite Exists_exists in He. destruct He as (q & Hq & Hp).
      rewrite Forall_forall in Hf. by apply Hf in Hq.
    + split; [by intros [? _]|]. intros Hd. split; [done|]. apply Forall_forall. intros q Hq Hp.
      apply He. apply Exists_exists. eauto.
Qed.
Print Assumptions C12_rows.

Definition ex_rops : list rop :=
  [RAdd [pab] [pa] 10; RAdd [pd] [] 20; RUpdate [pab] None (Some 30%Z); RRm [pd]; RAdd [pac] [] 40].
Example C12_example :
  run_ok sr_step rop_ok ∅ ex_rops ∧
  ∃ t n, run (r_step h_inj some_salts id) (t_empty, 0) ex_rops = Some (t, n)
    ∧ map (t_info h_inj t) [pa; pab; pac; pd]
      = [Some (RData true 10); Some (RData false 30); Some (RData false 40); None]
    ∧ map fst (map_to_list (r_get_paths h_inj t None None (Some 30%Z))) = [pac].
Proof.
  split; [apply (bool_decide_unpack _); vm_compute; exact I|].
  witness (run (r_step h_inj some_salts id) (t_empty, 0) ex_rops) (λ tn : tables rdata * nat, (map (t_info h_inj tn.1) [pa; pab; pac; pd], map fst (map_to_list (r_get_paths h_inj tn.1 None None (Some 30%Z))))) ([Some (RData true 10); Some (RData false 30); Some (RData false 40); None], [pac]).
  split; [exact Er|]. by apply pair_equal_spec in Ev.
Qed.

(** ** C13, C14 Directory rows follow from their children; C68.
    The histories: parents come before or with their children ([lop_ok]); an
    update of a directory that has children also updates something below it,
    and no path is marked as a file by an update ([lop_keep]). *)
Lemma all_paths_lookup H t m (p : path) : collision_free H → good H t m → l_get_paths H t None None None = m.
Proof.
  intros Hcf G. unfold l_get_paths. rewrite (good_queries H Hcf t m None _ G).
  apply map_eq. intros q. apply option_eq. intros d. rewrite s_query_lookup. simpl.
  split; [by intros [? _]|]. intros Hd. split; [done|]. split; [apply prefix_nil|done].
Qed.
Theorem C13_priority_is_sum H salts iter os t n :
  collision_free H → (∀ l, iter l ≡ₚ l) →
  run_ok sl_step (λ m o, lop_ok m o ∧ lop_keep m o) ∅ os →
  run (l_step H salts iter) (t_empty, 0) os = Some (t, n) →
  let all := l_get_paths H t None None None in
  ∀ p d c e, t_info H t p = Some d → child_of c p → t_info H t c = Some e →
    ld_prio d = foldr Qcplus 0%Qc (map (λ kv, ld_prio kv.2) (map_to_list (filter (λ kv, child_of kv.1 p) all))).
Proof.
  intros Hcf Hi Hok Hr all p d c e Hp Hc He.
  destruct (linv_run H salts iter Hcf Hi os t_empty ∅ 0 t n) as (m & G & Ip & _ & _);
    [apply good_empty|split; [|split]; apply inv_empty|done|done|].
  unfold all. rewrite (all_paths_lookup H t m p Hcf G).
  rewrite (t_info_repr H t m) in Hp, He by (try apply G; by apply good_no_alias).
  rewrite (Ip p d Hp).
  - unfold s_children. by rewrite map_map.
  - intros E. rewrite s_children_nil in E. rewrite E in He; done.
Qed.
Print Assumptions C13_priority_is_sum.

Theorem C14_local_is_conjunction H salts iter os t n :
  collision_free H → (∀ l, iter l ≡ₚ l) →
  run_ok sl_step (λ m o, lop_ok m o ∧ lop_keep m o) ∅ os →
  run (l_step H salts iter) (t_empty, 0) os = Some (t, n) →
  ∀ p d c e, t_info H t p = Some d → child_of c p → t_info H t c = Some e →
    (ld_local d = true ↔ ∀ c' e', child_of c' p → t_info H t c' = Some e' → ld_local e' = true).
Proof.
  intros Hcf Hi Hok Hr p d c e Hp Hc He.
  destruct (linv_run H salts iter Hcf Hi os t_empty ∅ 0 t n) as (m & G & _ & Il & _);
    [apply good_empty|split; [|split]; apply inv_empty|done|done|].
  assert (∀ q, t_info H t q = m !! q) as Hti.
  { intros q. apply t_info_repr; [apply G|by apply good_no_alias]. }
  rewrite Hti in Hp, He. rewrite (Il p d Hp).
  2:{ intros E. rewrite s_children_nil in E. rewrite E in He; done. }
  rewrite forallb_forall. split.
  - intros Hf c' e' Hc' He'. rewrite Hti in He'. apply (Hf (ld_local e')).
    apply elem_of_list_In, elem_of_list_fmap. exists e'. split; [done|]. apply elem_of_s_children. eauto.
  - intros Hf x Hx. apply elem_of_list_In, elem_of_list_fmap in Hx as (e' & -> & Hx).
    apply elem_of_s_children in Hx as (c' & Hc' & He'). eapply Hf; [done|]. by rewrite Hti.
Qed.
Print Assumptions C14_local_is_conjunction.

(** The example history meets the hypotheses and has a directory with
    children (see [C11_example] for the values). *)
Example C13_C14_example :
  run_ok sl_step (λ m o, lop_ok m o ∧ lop_keep m o) ∅ ex_ops ∧
  ∃ t n, run (l_step h_inj some_salts id) (t_empty, 0) (take 6 ex_ops) = Some (t, n)
    ∧ map (λ p, show <$> t_info h_inj t p) [pa; pab; pac]
      = [Some (true, 16 # 1, false); Some (false, 6 # 1, true); Some (false, 10 # 1, false)].
Proof.
  split; [apply ex_ops_ok|].
  witness (run (l_step h_inj some_salts id) (t_empty, 0) (take 6 ex_ops)) (λ tn : tables ldata * nat, map (λ p, show <$> t_info h_inj tn.1 p) [pa; pab; pac]) ([Some (true, 16 # 1, false); Some (false, 6 # 1, true); Some (false, 10 # 1, false)]).
  split; [exact Er|exact Ev].
Qed.

(** Without the condition on updates the statement fails: raising a
    directory's own priority leaves it different from its children's sum. *)
Theorem C13_condition_needed :
  ∃ os t n, run_ok sl_step lop_ok ∅ os ∧
    run (l_step h_inj some_salts id) (t_empty, 0) os = Some (t, n) ∧
    show <$> t_info h_inj t pa = Some (true, 3 # 1, true) ∧
    map (λ kv, show kv.2) (map_to_list (filter (λ kv, child_of kv.1 pa) (l_get_paths h_inj t None None None)))
      = [(false, 2 # 1, true)].
Proof.
  set (os := [LAdd [pab] [pa] (Q2Qc 2) true; LIncrement [pa] (Q2Qc 1)]). exists os.
  witness (run (l_step h_inj some_salts id) (t_empty, 0) os) (λ tn : tables ldata * nat, (show <$> t_info h_inj tn.1 pa, map (λ kv, show kv.2) (map_to_list (filter (λ kv, child_of kv.1 pa) (l_get_paths h_inj tn.1 None None None))))) (Some (true, 3 # 1, true), [(false, 2 # 1, true)]).
  split; [apply (bool_decide_unpack _); vm_compute; exact I|]. split; [exact Er|]. by apply pair_equal_spec in Ev.
Qed.

Theorem C68_parents_are_directories H salts iter :
  collision_free H → (∀ l, iter l ≡ₚ l) →
  (∀ os t n, run_ok sl_step (λ m o, lop_ok m o ∧ lop_keep m o) ∅ os →
     run (l_step H salts iter) (t_empty, 0) os = Some (t, n) →
     ∀ p c e, p ≠ [] → child_of c p → t_info H t c = Some e → ∃ d, t_info H t p = Some d ∧ ld_dir d = true)
  ∧ (∀ os t n, run_ok sr_step (λ m o, rop_ok m o ∧ rop_keep m o) ∅ os →
     run (r_step H salts iter) (t_empty, 0) os = Some (t, n) →
     ∀ p c e, p ≠ [] → child_of c p → t_info H t c = Some e → ∃ d, t_info H t p = Some d ∧ rd_dir d = true).
Proof.
  intros Hcf Hi. split.
  - intros os t n Hok Hr p c e Hpn Hc He.
    destruct (linv_run H salts iter Hcf Hi os t_empty ∅ 0 t n) as (m & G & _ & _ & Id);
      [apply good_empty|split; [|split]; apply inv_empty|done|done|].
    rewrite (t_info_repr H t m) by (try apply G; by apply good_no_alias).
    rewrite (t_info_repr H t m) in He by (try apply G; by apply good_no_alias).
    pose proof Hc as Hc'. apply child_parent in Hc' as [_ Ep].
    destruct (good_tree H t m G c) as [_ Hpar]; [by apply elem_of_dom|]. rewrite Ep in Hpar.
    specialize (Hpar Hpn). apply elem_of_dom in Hpar as [d Hd]. exists d. split; [done|].
    apply (Id p d Hd). intros E. rewrite s_children_nil in E. rewrite E in He; done.
  - intros os t n Hok Hr p c e Hpn Hc He.
    destruct (rinv_run H salts iter Hcf Hi os t_empty ∅ 0 t n) as (m & G & Id);
      [apply good_empty|apply inv_empty|done|done|].
    rewrite (t_info_repr H t m) by (try apply G; by apply good_no_alias).
    rewrite (t_info_repr H t m) in He by (try apply G; by apply good_no_alias).
    pose proof Hc as Hc'. apply child_parent in Hc' as [_ Ep].
    destruct (good_tree H t m G c) as [_ Hpar]; [by apply elem_of_dom|]. rewrite Ep in Hpar.
    specialize (Hpar Hpn). apply elem_of_dom in Hpar as [d Hd]. exists d. split; [done|].
    apply (Id p d Hd). intros E. rewrite s_children_nil in E. rewrite E in He; done.
Qed.
Print Assumptions C68_parents_are_directories.
(** A path added as a file becomes a directory when something is added below. *)
Example C68_example :
  run_ok sl_step (λ m o, lop_ok m o ∧ lop_keep m o) ∅ [LAdd [pa] [] (Q2Qc 1) true; LAdd [pab] [] (Q2Qc 1) true] ∧
  ∃ t n, run (l_step h_inj some_salts id) (t_empty, 0) [LAdd [pa] [] (Q2Qc 1) true; LAdd [pab] [] (Q2Qc 1) true] = Some (t, n)
    ∧ show <$> t_info h_inj t pa = Some (true, 1 # 1, true).
Proof.
  split; [apply (bool_decide_unpack _); vm_compute; exact I|].
  witness (run (l_step h_inj some_salts id) (t_empty, 0) [LAdd [pa] [] (Q2Qc 1) true; LAdd [pab] [] (Q2Qc 1) true]) (λ tn : tables ldata * nat, show <$> t_info h_inj tn.1 pa) (Some (true, 1 # 1, true)).
  split; [exact Er|exact Ev].
Qed.

(** ** C15 Colliding hashes. *)

(** Unsalted hashes may collide in any way.  If salted hashes are fresh, the
    new paths of one batch differ in their unsalted hashes, only known paths
    are updated or removed, and no removed path lies below another removed
    path, then the database is still a tree map for every known path.
    Missing for the full statement: the conditions just listed; the next
    theorems show that each of the last three is needed. *)
Theorem C15_collisions_harmless_partial H salts iter os :
  salts_fresh H salts → (∀ l, iter l ≡ₚ l) →
  run_ok sl_step (λ m o, lop_ok m o ∧ lop_coll H m o) ∅ os →
  match run sl_step ∅ os with
  | Some m => ∃ t n, run (l_step H salts iter) (t_empty, 0) os = Some (t, n)
      ∧ (∀ p d, m !! p = Some d → t_info H t p = Some d)
      ∧ l_get_paths H t None None None = m
      ∧ (∀ r p d, r ∈ dom m → l_get_paths H t (Some r) None None !! p = Some d ↔ m !! p = Some d ∧ r `prefix_of` p)
  | None => run (l_step H salts iter) (t_empty, 0) os = None
  end.
Proof.
  intros Hs Hi Hok. pose proof (cgood_l_run H salts iter Hs Hi os t_empty ∅ 0 (cgood_empty H salts) Hok) as Hr.
  destruct (run sl_step ∅ os) as [m|]; [|done]. destruct Hr as (t & n & E & G).
  exists t, n. split; [done|]. split; [|split].
  - intros p d Hp. by apply (t_info_known H t m); [apply G|].
  - unfold l_get_paths. rewrite (cgood_query H salts t m None _ G) by done.
    apply map_eq. intros q. apply option_eq. intros d. rewrite s_query_lookup. simpl.
    split; [by intros [? _]|]. intros Hd. split; [done|]. split; [apply prefix_nil|done].
  - intros r p d Hrd. unfold l_get_paths. rewrite (cgood_query H salts t m (Some r) _ G).
    + rewrite s_query_lookup. simpl. naive_solver.
    + intros r' Er _. by injection Er as <-.
Qed.
Print Assumptions C15_collisions_harmless_partial.
Theorem C15_remote_collisions_harmless_partial H salts iter os :
  salts_fresh H salts → (∀ l, iter l ≡ₚ l) →
  run_ok sr_step (λ m o, rop_ok m o ∧ rop_coll H m o) ∅ os →
  ∃ m t n, run sr_step ∅ os = Some m ∧ run (r_step H salts iter) (t_empty, 0) os = Some (t, n)
    ∧ (∀ p d, m !! p = Some d → t_info H t p = Some d)
    ∧ r_get_paths H t None None None = m.
Proof.
  intros Hs Hi Hok.
  destruct (cgood_r_run H salts iter Hs Hi os t_empty ∅ 0 (cgood_empty H salts) Hok) as (m & t & n & E1 & E2 & G).
  exists m, t, n. split; [done|]. split; [done|]. split.
  - intros p d Hp. by apply (t_info_known H t m); [apply G|].
  - unfold r_get_paths. rewrite (cgood_query H salts t m None _ G) by done.
    apply map_eq. intros q. apply option_eq. intros d. rewrite s_query_lookup. simpl.
    split; [by intros [? _]|]. intros Hd. split; [done|]. split; [apply prefix_nil|done].
Qed.
Print Assumptions C15_remote_collisions_harmless_partial.

(** A hash under which all names at the top collide. *)
Definition h_top (p : path) (s : str) : Z :=
  match p, s with [_], [] => (-1)%Z | _, _ => Zpos (encode (p, s)) end.
Lemma h_top_fresh : salts_fresh h_top some_salts.
Proof.
  intros p k q s _. unfold h_top, some_salts. destruct p as [|x [|y p]].
  all: destruct q as [|x' [|y' q]], s as [|c s]; intros E; try done; injection E as E; apply (inj encode) in E; congruence.
Qed.
Definition ex_cops : list lop :=
  [LAdd [pd] [] (Q2Qc 5) true; LAdd [pab] [pa] (Q2Qc 2) true; LAdd [pe] [] (Q2Qc 1) false; LRm [pd]].
Example C15_example :
  salts_fresh h_top some_salts ∧ run_ok sl_step (λ m o, lop_ok m o ∧ lop_coll h_top m o) ∅ ex_cops ∧
  ∃ t n, run (l_step h_top some_salts id) (t_empty, 0) ex_cops = Some (t, n)
    ∧ map (λ p, show <$> t_info h_top t p) [pa; pab; pe]
      = [Some (true, 2 # 1, true); Some (false, 2 # 1, true); Some (false, 1 # 1, false)].
Proof.
  split; [apply h_top_fresh|]. split; [apply (bool_decide_unpack _); vm_compute; exact I|].
  witness (run (l_step h_top some_salts id) (t_empty, 0) ex_cops) (λ tn : tables ldata * nat, map (λ p, show <$> t_info h_top tn.1 p) [pa; pab; pe]) ([Some (true, 2 # 1, true); Some (false, 2 # 1, true); Some (false, 1 # 1, false)]).
  split; [exact Er|exact Ev].
Qed.

(** Two colliding paths added together: one of them is lost. *)
Theorem C15_same_batch_refuted :
  ∃ H salts os t n, salts_fresh H salts ∧ run_ok sl_step lop_ok ∅ os ∧
    run (l_step H salts id) (t_empty, 0) os = Some (t, n) ∧
    os = [LAdd [pd; pe] [] (Q2Qc 5) true] ∧ l_get_paths H t None None None !! pe = None.
Proof.
  exists h_top, some_salts. set (os := [LAdd [pd; pe] [] (Q2Qc 5) true]). exists os.
  witness (run (l_step h_top some_salts id) (t_empty, 0) os) (λ tn : tables ldata * nat, show <$> l_get_paths h_top tn.1 None None None !! pe) (None : option (bool * Q * bool)).
  split; [apply h_top_fresh|]. split; [apply (bool_decide_unpack _); vm_compute; exact I|].
  split; [exact Er|]. split; [done|]. by apply fmap_None in Ev.
Qed.
Print Assumptions C15_same_batch_refuted.
(** Removing a salted directory together with its contents resets the priority
    and the local flag of the path it collided with: the salt is gone when the
    parents' ids are computed again. *)
Theorem C15_remove_refuted :
  ∃ H salts os t n, salts_fresh H salts ∧ run_ok sl_step lop_ok ∅ os ∧
    run (l_step H salts id) (t_empty, 0) os = Some (t, n) ∧
    os = [LAdd [pd] [] (Q2Qc 5) true; LAdd [pab] [pa] (Q2Qc 2) true; LRm [pa; pab]] ∧
    show <$> t_info H t pd = Some (false, 0 # 1, false).
Proof.
  exists h_top, some_salts.
  set (os := [LAdd [pd] [] (Q2Qc 5) true; LAdd [pab] [pa] (Q2Qc 2) true; LRm [pa; pab]]). exists os.
  witness (run (l_step h_top some_salts id) (t_empty, 0) os) (λ tn : tables ldata * nat, show <$> t_info h_top tn.1 pd) (Some (false, 0 # 1, false)).
  split; [apply h_top_fresh|]. split; [apply (bool_decide_unpack _); vm_compute; exact I|].
  split; [exact Er|]. split; [done|]. exact Ev.
Qed.
Print Assumptions C15_remove_refuted.
(** Asking for, or removing, a path that was never added hits the path it
    collides with. *)
Theorem C15_unknown_path_refuted :
  ∃ H salts os t n, salts_fresh H salts ∧ run_ok sl_step lop_ok ∅ os ∧
    run (l_step H salts id) (t_empty, 0) os = Some (t, n) ∧ os = [LAdd [pd] [] (Q2Qc 5) true] ∧
    show <$> t_info H t pe = Some (false, 5 # 1, true) ∧
    l_get_paths H (l_rm H t [pe]) None None None = ∅.
Proof.
  exists h_top, some_salts. set (os := [LAdd [pd] [] (Q2Qc 5) true]). exists os.
  witness (run (l_step h_top some_salts id) (t_empty, 0) os) (λ tn : tables ldata * nat, (show <$> t_info h_top tn.1 pe, map fst (map_to_list (l_get_paths h_top (l_rm h_top tn.1 [pe]) None None None)))) (Some (false, 5 # 1, true), @nil path).
  split; [apply h_top_fresh|]. split; [apply (bool_decide_unpack _); vm_compute; exact I|].
  split; [exact Er|]. split; [done|]. apply pair_equal_spec in Ev as [E1 E2]. split; [exact E1|].
  cbn [fst] in E2. apply map_to_list_empty_iff. by destruct (map_to_list _).
Qed.
Print Assumptions C15_unknown_path_refuted.

(** ** C16 Adding paths terminates: every database, hash, salts and batch.
    ([None] of [r_add] and [l_add] is only the exhaustion of the allowed
    number of passes, one more than there are paths.) *)
Theorem C16_add_terminates H salts iter files dirs :
  (∀ (t : tables ldata) n prio local, is_Some (l_add H salts iter t n files dirs prio local))
  ∧ (∀ (t : tables rdata) n now, is_Some (r_add H salts iter t n files dirs now)).
Proof.
  split.
  - intros t n prio local. unfold l_add, t_add.
    destruct (resolve_total H salts t n (add_order iter files dirs)) as [[t' n'] ->]. eauto.
  - intros t n now. unfold r_add, t_add.
    destruct (resolve_total H salts t n (add_order iter files dirs)) as [[t' n'] ->]. eauto.
Qed.
Print Assumptions C16_add_terminates.
(** The loop does run more than once: two new paths collide with known ones. *)
Example C16_example :
  (λ tn : tables ldata * nat,
     (bool_decide (is_Some (resolve h_top some_salts 1 tn.1 tn.2 [pa; pe])),
      snd <$> resolve h_top some_salts 2 tn.1 tn.2 [pa; pe])) <$>
  run (l_step h_top some_salts id) (t_empty, 0) [LAdd [pd] [] (Q2Qc 5) true]
  = Some (false, Some 2).
Proof. vm_compute. reflexivity. Qed.

(** ** C17 Inflated priority. *)
Theorem C17_inflated_partial H salts iter os t n files dirs :
  collision_free H → (∀ l, iter l ≡ₚ l) → run_ok sl_step lop_ok ∅ (os ++ [LAddInflated files dirs]) →
  run (l_step H salts iter) (t_empty, 0) os = Some (t, n) →
  (* some file is known: what is missing for the full statement *)
  (∃ f e, t_info H t f = Some e ∧ ld_dir e = false) →
  ∃ t' n', l_add_inflated H salts iter t n files dirs = Some (t', n') ∧
    ∀ p, p ∈ files → p ∉ dirs → t_info H t p = None → (∀ c, child_of c p → c ∉ files ++ dirs) →
      ∃ d, t_info H t' p = Some d ∧ ld_dir d = false ∧ ld_local d = true
        ∧ (∃ f e, t_info H t f = Some e ∧ ld_dir e = false ∧ ld_prio e = ld_prio d)
        ∧ (∀ f e, t_info H t f = Some e → ld_dir e = false → (ld_prio e <= ld_prio d)%Qc).
Proof.
  intros Hcf Hi Hok Hr (f0 & e0 & Hf0 & He0).
  assert (Hsplit : ∀ os m, run_ok sl_step lop_ok m (os ++ [LAddInflated files dirs]) →
     run_ok sl_step lop_ok m os ∧ ∀ m', run sl_step m os = Some m' → lop_ok m' (LAddInflated files dirs)).
  { clear. induction os as [|o os IH]; intros m; simpl.
    - intros [Hp _]. split; [done|]. intros m' E. by injection E as <-.
    - intros [Ho Hok]. split.
      + split; [done|]. intros s' E. by apply IH, Hok.
      + intros m' E. destruct (sl_step m o) as [s'|] eqn:Es; [|done]. eapply IH; [by apply Hok|done]. }
  destruct (Hsplit os ∅ Hok) as [Hok1 Hok2].
  pose proof (good_l_run H salts iter Hcf Hi os t_empty ∅ 0 (good_empty H) Hok1) as Hg.
  destruct (run sl_step ∅ os) as [m|] eqn:Em; [|congruence]. destruct Hg as (t1 & n1 & E1 & G).
  rewrite Hr in E1. injection E1 as <- <-. specialize (Hok2 m eq_refl). simpl in Hok2.
  assert (∀ (t : tables ldata) m q, good H t m → t_info H t q = m !! q) as Hti.
  { intros t0 m0 q G0. apply t_info_repr; [apply G0|by apply good_no_alias]. }
  pose proof (max_prio_spec (map snd (map_to_list m))) as Hmx.
  pose proof (good_l_step H salts iter Hcf Hi t m n (LAddInflated files dirs) G Hok2) as Hst.
  simpl in Hst. unfold sl_add_inflated, sl_max in Hst.
  assert (∀ f e, m !! f = Some e → e ∈ map snd (map_to_list m)) as Hin.
  { intros f e Hf. apply elem_of_list_fmap. exists (f, e). split; [done|]. by apply elem_of_map_to_list. }
  destruct (max_prio (map snd (map_to_list m))) as [q|].
  2:{ exfalso. rewrite (Hti _ _ _ G) in Hf0. apply Hin, Hmx in Hf0. congruence. }
  destruct Hst as (t' & n' & E' & G'). exists t', n'. split; [done|].
  intros p Hpf Hpd Hpn Hch. rewrite (Hti _ _ _ G) in Hpn. exists (LData false q true).
  split; [|split; [done|split; [done|split]]].
  - rewrite (Hti _ _ _ G'). pose proof (good_tree H t m G) as Ht.
    assert (p ≠ []) as Hpne by (apply (Hok2 p); apply elem_of_app; by left).
    assert (∀ c, child_of c p → c ∉ dom m) as Hcm.
    { intros c Hc Hcd. destruct (Ht c Hcd) as [_ Hpar]. apply child_parent in Hc as [_ Ep]. rewrite Ep in Hpar.
      specialize (Hpar Hpne). by apply not_elem_of_dom in Hpn. }
    assert (dom (sl_add m files dirs q true) = dom m ∪ list_to_set (files ++ dirs)) as Hd.
    { unfold sl_add, sl_refresh. by rewrite !dom_s_recompute, dom_s_add. }
    rewrite (C11_leaf_rows m _ (LAdd files dirs q true) p Ht Hok2 eq_refl I).
    + rewrite Hpn. by rewrite bool_decide_false.
    + intros c Hc. split; [by apply Hcm|]. rewrite Hd, not_elem_of_union, elem_of_list_to_set.
      split; [by apply Hcm|by apply Hch].
    + rewrite Hd. apply elem_of_union_r, elem_of_list_to_set, elem_of_app. by left.
  - destruct Hmx as [(d & Hd & Ed & Eq) _]. apply elem_of_list_fmap in Hd as ([f e] & -> & Hd).
    apply elem_of_map_to_list in Hd. exists f, e. rewrite (Hti _ _ _ G). done.
  - intros f e Hf He. rewrite (Hti _ _ _ G) in Hf. simpl. apply Hmx; [by eapply Hin|done].
Qed.
Print Assumptions C17_inflated_partial.
Example C17_example :
  run_ok sl_step lop_ok ∅ (take 5 ex_ops ++ [LAddInflated [pe] []]) ∧
  ∃ t n, run (l_step h_inj some_salts id) (t_empty, 0) (take 5 ex_ops) = Some (t, n) ∧
    show <$> t_info h_inj t pd = Some (false, 12 # 1, false) ∧ t_info h_inj t pe = None.
Proof.
  split; [apply (bool_decide_unpack _); vm_compute; exact I|].
  witness (run (l_step h_inj some_salts id) (t_empty, 0) (take 5 ex_ops)) (λ tn : tables ldata * nat, (show <$> t_info h_inj tn.1 pd, show <$> t_info h_inj tn.1 pe)) (Some (false, 12 # 1, false), None : option (bool*Q*bool)).
  apply pair_equal_spec in Ev as [E1 E2]. split; [exact Er|]. split; [exact E1|]. by apply fmap_None in E2.
Qed.

(** With no file known the call fails. *)
Theorem C17_no_file_refuted :
  ∀ H salts iter n files dirs, files ++ dirs ≠ [] →
    l_add_inflated H salts iter t_empty n files dirs = None.
Proof.
  intros H salts iter n files dirs Hne. unfold l_add_inflated. simpl. by rewrite bool_decide_false.
Qed.
Print Assumptions C17_no_file_refuted.
