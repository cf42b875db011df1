(** What the file handling of [init] does. *)
From Coq Require Import QArith Qcanon.
From Verif Require Export InitReset SyncProofs DBInv.
From stdpp Require Import options.

Lemma app_ne (a b : path) : b ≠ [] → a ++ b ≠ [].
Proof. by destruct a, b. Qed.
Lemma prefix_below_root (D k p : path) : k `prefix_of` D ++ p → ¬ below k D → k `prefix_of` D.
Proof.
  intros H Hb. destruct (prefix_root_cases D p k H) as [?|(q & Hq & _ & ->)]; [done|]. exfalso. apply Hb.
  apply below_root. eauto.
Qed.
Lemma below_app_ne (D q : path) : q ≠ [] → below (D ++ q) D.
Proof. intros H. apply below_root. eauto. Qed.
Lemma not_below_self (D : path) : ¬ below D D.
Proof. apply prefix_not_below. done. Qed.
Lemma wp_ltrue {S A} (m : M S A) (I : S → Prop) (Q : res A → S → Prop) s : wp m I Q s → wp m (λ _, True) Q s.
Proof. intros H. by eapply wp_trace_mono. Qed.

(** The databases after the first paths have been added. *)
Lemma sl_add_dir (files dirs : list path) prio local p :
  ld_dir <$> sl_add ∅ files dirs prio local !! p =
    if bool_decide (p ∈ files ++ dirs) then Some (bool_decide (p ∈ dirs) || bool_decide (p ∈ parents (files ++ dirs))) else None.
Proof.
  unfold sl_add, sl_refresh. rewrite <-!lookup_fmap, <-!fmap_s_recompute by done. rewrite lookup_fmap. unfold s_add.
  rewrite s_upd_lookup by (left; intros; done). rewrite s_insert_lookup, lookup_empty.
  case_bool_decide as H1; case_bool_decide as H2; simpl; try done; by rewrite ?orb_true_r, ?orb_false_r.
Qed.
Lemma sl_add_files (files dirs : list path) prio local p :
  (∀ q, q ∈ files → q ∉ dirs ∧ q ∉ parents (files ++ dirs)) →
  p ∈ dom (sl_get (sl_add ∅ files dirs prio local) None (Some false) None) ↔ p ∈ files.
Proof.
  intros Hf. unfold sl_get. rewrite dom_s_query. pose proof (sl_add_dir files dirs prio local p) as Hd. split.
  - intros (d & E & _ & Hb). rewrite E in Hd. simpl in Hd, Hb. case_bool_decide as Hp; [|done]. injection Hd as Hd.
    rewrite andb_true_r in Hb. apply elem_of_app in Hp as [?|Hp]; [done|]. rewrite (bool_decide_true (p ∈ dirs)) in Hd by done.
    simpl in Hd. rewrite Hd in Hb. done.
  - intros Hp. destruct (Hf p Hp) as [H1 H2]. rewrite bool_decide_true in Hd by (apply elem_of_app; by left).
    rewrite (bool_decide_false _ H1), (bool_decide_false _ H2) in Hd.
    apply fmap_Some in Hd as (d & Hd & E). simpl in E. exists d. split; [done|]. split; [apply prefix_nil|]. by rewrite <-E.
Qed.
Lemma sl_add_dirs (files dirs : list path) prio local p :
  (∀ q, q ∈ files → q ∉ dirs ∧ q ∉ parents (files ++ dirs)) →
  p ∈ dom (sl_get (sl_add ∅ files dirs prio local) None (Some true) None) ↔ p ∈ dirs.
Proof.
  intros Hf. unfold sl_get. rewrite dom_s_query. pose proof (sl_add_dir files dirs prio local p) as Hd. split.
  - intros (d & E & _ & Hb). rewrite E in Hd. simpl in Hd, Hb. case_bool_decide as Hp; [|done]. injection Hd as Hd.
    rewrite andb_true_r in Hb. apply elem_of_app in Hp as [Hp|?]; [|done]. destruct (Hf p Hp) as [H1 H2].
    rewrite (bool_decide_false _ H1), (bool_decide_false _ H2) in Hd. rewrite Hd in Hb. done.
  - intros Hp. rewrite bool_decide_true in Hd by (apply elem_of_app; by right).
    rewrite (bool_decide_true _ Hp) in Hd. apply fmap_Some in Hd as (d & Hd & E). simpl in E. exists d. split; [done|].
    split; [apply prefix_nil|]. by rewrite <-E.
Qed.
Lemma dom_sl_add (m : lmap) files dirs prio local : dom (sl_add m files dirs prio local) = dom m ∪ list_to_set (files ++ dirs).
Proof. unfold sl_add, sl_refresh. by rewrite !dom_s_recompute, dom_s_add. Qed.
Lemma dom_sr_add (m : rmap) files dirs now : dom (sr_add m files dirs now) = dom m ∪ list_to_set (files ++ dirs).
Proof. unfold sr_add. by rewrite dom_s_add. Qed.

Lemma sr_add_lookup m files dirs now p :
  sr_add m files dirs now !! p =
    match m !! p with
    | Some d => Some (if bool_decide (p ∈ parents (files ++ dirs)) then set_rdir true d else d)
    | None => if bool_decide (p ∈ files ++ dirs)
              then Some (RData (bool_decide (p ∈ dirs) || bool_decide (p ∈ parents (files ++ dirs))) now) else None
    end.
Proof.
  unfold sr_add, s_add. rewrite s_upd_lookup by (left; by intros []). rewrite s_insert_lookup.
  destruct (m !! p) as [d|]; case_bool_decide as H1; simpl; try done; case_bool_decide as H2; simpl; try done; by rewrite ?orb_true_r, ?orb_false_r.
Qed.

(** ** A local directory on its way to the remote directory *)
Section init.
  Context (L R : path) (id : list N) (m0 : fs) (X : pset).

  (** Entries that stay where they are: excluded ones and links that cannot be
      moved. *)
  Definition kept (q : path) : Prop := q ∈ X ∨ unsafe_link m0 (L ++ q) L = true.
  Definition moved (q : path) : Prop := q ≠ [] ∧ is_Some (m0 !! (L ++ q)) ∧ ¬ kept q.
  Definition holder (q : path) : Prop := ∃ r, moved r ∧ q `prefix_of` r.
  (** What may stand in the remote directory. *)
  Definition arrived (q : path) (n : node) : Prop :=
    match n with
    | Dir _ => holder q ∧ dir_at m0 (L ++ q)
    | File _ _ => moved q ∧ ∃ c t, m0 !! (L ++ q) = Some (File c t)
    | Link l _ => moved q ∧ ∃ t, m0 !! (L ++ q) = Some (Link l t)
    end.
  Definition replaced (m : fs) (q : path) : Prop :=
    moved q ∧ nondir (m0 !! (L ++ q)) ∧ m !! (R ++ q) = m0 !! (L ++ q)
    ∧ (m !! (L ++ q) = None ∨ ∃ k, m !! (L ++ q) = Some (Link (abs_path (R ++ q)) k)).
  Local Notation exdir := (R ++ zielen_dir ++ [lit "exclude"]).
  Local Notation trdir := (R ++ zielen_dir ++ [lit "Trash"]).
  Record util_part (m : fs) : Prop := {
    up_ex : dirs_ok m exdir;
    up_tr : dirs_ok m trdir;
    up_file : m !! (exdir ++ [id]) = None ∨ ∃ c t, m !! (exdir ++ [id]) = Some (File c t)
  }.
  Record partway (m : fs) : Prop := {
    pw_wf : wf_fs m;
    pw_out : ∀ k, ¬ below k L → ¬ below k R → m !! k = m0 !! k;
    pw_local : ∀ q, q ≠ [] → m !! (L ++ q) = m0 !! (L ++ q) ∨ replaced m q;
    pw_remote : ∀ q n, q ≠ [] → ¬ zielen_dir `prefix_of` q → m !! (R ++ q) = Some n → arrived q n;
    pw_util : util_part m;
    pw_trash : ∀ x, m !! (trdir ++ [x]) = None
  }.
  (** The directories before [init]. *)
  Record clean_start : Prop := {
    cs_wf : wf_fs m0;
    cs_apart : apart L R;
    cs_L : dir_at m0 L;
    cs_R : dir_at m0 R;
    cs_Lne : L ≠ [];
    cs_Rne : R ≠ [];
    cs_empty : ∀ q, q ≠ [] → m0 !! (R ++ q) = None;
    cs_util : ∀ q, zielen_dir `prefix_of` q → m0 !! (L ++ q) = None;
    cs_id : valid_name id;
    cs_echo : ∀ q x l k, q ≠ [] → last q = Some x → m0 !! (L ++ q ++ [x]) ≠ Some (Link l k) ∨ kept (q ++ [x])
  }.
  Context (H0 : clean_start).

  Lemma dir_LR k m : partway m → k = L ∨ k = R → dir_at m k.
  Proof using H0.
    intros P Hk.
    assert (dir_at m0 k ∧ k ≠ [] ∧ ¬ below k L ∧ ¬ below k R) as ([t Ht] & Hne & H1 & H2).
    { destruct Hk as [-> | ->]; (split; [apply H0|split; [apply H0|split]]); try apply not_below_self.
      - pose proof (apart_not_below L R [] (cs_apart H0)) as Hb. by rewrite app_nil_r in Hb.
      - pose proof (apart_not_below R L [] (apart_sym _ _ (cs_apart H0))) as Hb. by rewrite app_nil_r in Hb. }
    exists t. rewrite node_at_ne in Ht |- * by done. by rewrite (pw_out _ P).
  Qed.
  Lemma partway_start : partway m0.
  Proof using H0.
    assert (∀ q, q ≠ [] → dirs_ok m0 (R ++ q)) as Hok.
    { intros q Hq k Hk Hp. destruct (prefix_root_cases R q k Hp) as [Hp'|(s & Hs & _ & ->)].
      - right. eapply wf_dir_anc; [apply (cs_wf H0)|apply (cs_R H0)|done].
      - left. by apply H0. }
    split.
    - apply H0.
    - done.
    - by left.
    - intros q n Hq _ E. by rewrite (cs_empty H0) in E.
    - split; [by apply Hok..|]. left. rewrite <-app_assoc. by apply H0.
    - intros x. rewrite <-app_assoc. by apply H0.
  Qed.
  (** The entry of a moved path is a file, a link or a directory that is still
      in its place. *)
  Lemma local_dir m q : partway m → dir_at m0 (L ++ q) → dir_at m (L ++ q).
  Proof using H0.
    intros P Hd. destruct (decide (q = [])) as [->|Hq]; [rewrite app_nil_r; apply dir_LR; auto|].
    apply dir_at_lookup in Hd as [t Ht]; [|by apply app_ne]. apply dir_at_lookup; [by apply app_ne|].
    destruct (pw_local _ P q Hq) as [E|(_ & Hn & _)]; [rewrite E; eauto|]. by rewrite Ht in Hn.
  Qed.
  Lemma holder_dir q r : moved r → q `prefix_of` r → q ≠ r → dir_at m0 (L ++ q).
  Proof using H0.
    intros (_ & [n Hn] & _) Hq Hne. eapply wf_anc; [apply (cs_wf H0)|exact Hn|by apply prefix_app|].
    intros E. by apply app_inv_head in E.
  Qed.
  Lemma moved_not_util q : moved q → ¬ zielen_dir `prefix_of` q.
  Proof using H0. intros (_ & [n Hn] & _) Hz. by rewrite (cs_util H0) in Hn. Qed.
  Lemma unsafe_abs m q k t : wf_fs m → m !! (L ++ q) = Some (Link t k) → isabs t = true → unsafe_link m (L ++ q) L = true.
  Proof using.
    intros Hwf E Ha. unfold unsafe_link. rewrite (readlink_lookup m Hwf _ _ E). simpl. by rewrite Ha.
  Qed.
  Lemma unsafe_same m q n : partway m → m !! (L ++ q) = Some n → m0 !! (L ++ q) = Some n →
    unsafe_link m (L ++ q) L = unsafe_link m0 (L ++ q) L.
  Proof using H0.
    intros P E E0. unfold unsafe_link. by rewrite (readlink_lookup m (pw_wf _ P) _ _ E), (readlink_lookup m0 (cs_wf H0) _ _ E0).
  Qed.

  (** The set of excluded paths in a state on the way. *)
  Definition known_names (G : fs → pset) : Prop :=
    ∀ m, partway m → ∀ q, q ≠ [] → is_Some (m0 !! (L ++ q)) → (q ∈ G m ↔ q ∈ X ∧ is_Some (m !! (L ++ q))).
  Section state.
    Context (G : fs → pset) (HG : known_names G) (m : fs) (P : partway m).
    Definition unsafe_now : pset := unsafe_links m L (tree m L).
    Lemma elem_of_unsafe q : q ∈ unsafe_now ↔ q ≠ [] ∧ (∃ t k, m !! (L ++ q) = Some (Link t k)) ∧ unsafe_link m (L ++ q) L = true.
    Proof using.
      unfold unsafe_now, unsafe_links. rewrite elem_of_filter, elem_of_dom. unfold is_Some. setoid_rewrite map_filter_lookup_Some.
      setoid_rewrite tree_lookup. simpl. split.
      - intros (H1 & n & (H2 & H3) & H4). destruct n; try done. eauto.
      - intros (H1 & (t & k & H2) & H3). eauto.
    Qed.
    Local Notation todo := (wanted m L None (G m ∪ unsafe_now)).
    Lemma wanted_moved q : todo q → moved q ∧ m !! (L ++ q) = m0 !! (L ++ q).
    Proof using H0 HG P.
      intros (Hex & Hq & [n Hn]). rewrite elem_of_union, elem_of_unsafe in Hex. destruct (pw_local _ P q Hq) as [E|(_ & _ & _ & [E|[k E]])].
      - split; [|done]. rewrite Hn in E. symmetry in E. split; [done|]. split; [by eexists|].
        intros [HX|Hu].
        + apply Hex. left. apply (HG m P q Hq); [by eexists|]. split; [done|by eexists].
        + apply Hex. right. split; [done|]. rewrite (unsafe_same m q n P Hn E). split; [|done].
          destruct n as [| |]; [|by eauto|]; unfold unsafe_link in Hu; by rewrite (readlink_lookup m0 (cs_wf H0) _ _ E) in Hu.
      - congruence.
      - exfalso. apply Hex. right. split; [done|]. split; [eauto|]. eapply unsafe_abs; [apply P|exact E|done].
    Qed.
    Lemma moved_wanted q : moved q → todo q ∨ replaced m q.
    Proof using H0 HG P.
      intros (Hq & Hn & Hk). destruct (pw_local _ P q Hq) as [E|?]; [|by right]. left. destruct Hn as [n Hn].
      rewrite Hn in E. split; [|split; [done|by eexists]].
      rewrite elem_of_union, elem_of_unsafe. intros [Hg|(_ & _ & Hu)].
      - apply (HG m P q Hq) in Hg as [HX _]; [|by eexists]. apply Hk. by left.
      - rewrite (unsafe_same m q n P E Hn) in Hu. apply Hk. by right.
    Qed.
    Lemma not_wanted_kept q : is_Some (m0 !! (L ++ q)) → q ≠ [] → kept q → ¬ todo q.
    Proof using H0 HG P. intros Hn Hq Hk Hw. apply wanted_moved in Hw as [(_ & _ & ?) _]. done. Qed.

    (** Either nothing is in the remote directory, or there are no links to move. *)
    Definition no_links : Prop :=
      (∀ q, q ≠ [] → ¬ zielen_dir `prefix_of` q → m !! (R ++ q) = None)
      ∨ (∀ q l t, moved q → m0 !! (L ++ q) ≠ Some (Link l t)).
    Context (Hnl : no_links).
    Lemma init_transferable : transferable false m L R None (G m ∪ unsafe_now).
    Proof using H0 HG P Hnl.
      split.
      - apply P.
      - apply H0.
      - apply dir_LR; auto.
      - apply dir_LR; auto.
      - done.
      - intros q Hw. destruct (wanted_moved q Hw) as [Hm E]. pose proof Hm as (Hq & [n Hn] & Hk). unfold compat. rewrite E, Hn.
        pose proof (moved_not_util q Hm) as Hz.
        assert (∀ n', m !! (R ++ q) = Some n' → arrived q n') as Ha by (intros n'; by apply (pw_remote _ P)).
        destruct n as [c t|l t|t].
        + destruct (m !! (R ++ q)) as [[c' t'|l' t'|t']|]; [|exfalso..|by left].
          * right. left. eauto.
          * destruct (Ha _ eq_refl) as (_ & t'' & E'). congruence.
          * destruct (Ha _ eq_refl) as (_ & Hd). apply dir_at_lookup in Hd as [? ?]; [congruence|by apply app_ne].
        + left. destruct Hnl as [Hnl'|Hnl']; [by apply Hnl'|]. by destruct (Hnl' q l t Hm).
        + split.
          * destruct (m !! (R ++ q)) as [[c' t'|l' t'|t']|] eqn:Er; [exfalso..| |by left].
            -- destruct (Ha _ eq_refl) as (_ & c'' & t'' & E'). congruence.
            -- destruct (Ha _ eq_refl) as (_ & t'' & E'). congruence.
            -- right. apply dir_at_lookup; [by apply app_ne|by eexists].
          * intros x Hx. split.
            -- intros Hw' l k El. destruct (wanted_moved _ Hw') as [(_ & _ & Hk') E']. rewrite E' in El.
               destruct (cs_echo H0 q x l k Hq Hx) as [Hecho|Hkept]; [done|]. done.
            -- intros l k El. exfalso.
               assert (¬ zielen_dir `prefix_of` (q ++ [x])) as Hz'.
               { intros [s Hs]. apply Hz. unfold zielen_dir in *. destruct q as [|y q]; [done|]. injection Hs as -> _. by exists q. }
               assert (q ++ [x] ≠ []) as Hne by by destruct q.
               destruct Hnl as [Hnl'|Hnl'].
               ++ by rewrite (Hnl' (q ++ [x]) Hne Hz') in El.
               ++ destruct (pw_remote _ P _ _ Hne Hz' El) as (Hm' & t' & E'). by destruct (Hnl' _ l t' Hm').
      - intros q p Hw Hp Hne Hpn. destruct (wanted_moved q Hw) as [Hm E]. pose proof (holder_dir p q Hm Hp Hne) as Hd.
        destruct (m !! (R ++ p)) as [n'|] eqn:Er; [|by left]. right.
        assert (¬ zielen_dir `prefix_of` p) as Hz. { intros Hz. apply (moved_not_util q Hm). by trans p. }
        pose proof (pw_remote _ P p n' Hpn Hz Er) as Ha. apply dir_at_lookup in Hd as [t Ht]; [|by apply app_ne].
        destruct n' as [| |t']; simpl in Ha.
        + destruct Ha as (_ & ? & ? & ?). congruence.
        + destruct Ha as (_ & ? & ?). congruence.
        + apply dir_at_lookup; [by apply app_ne|by eexists].
      - done.
    Qed.
  End state.

  (** ** Steps that keep a state on its way *)
  Lemma util_same m m' :
    (∀ q, zielen_dir `prefix_of` q → m' !! (R ++ q) = m !! (R ++ q)) → (∀ k, k `prefix_of` R → m' !! k = m !! k) →
    util_part m → util_part m'.
  Proof using.
    intros Hz HR [H1 H2 H3].
    assert (∀ s, zielen_dir `prefix_of` s → length s = 2 → dirs_ok m (R ++ s) → dirs_ok m' (R ++ s)) as Hok.
    { intros s Hs Hl Hd k Hk Hp. assert (m' !! k = m !! k) as E.
      { destruct (prefix_root_cases R s k Hp) as [?|(q & Hq & Hqs & ->)]; [by apply HR|]. apply Hz.
        destruct q as [|x q]; [done|]. destruct Hs as [r ->]. unfold zielen_dir in *. simpl in Hqs.
        destruct Hqs as [r' Hr']. injection Hr' as <- _. by exists q. }
      unfold dir_at. rewrite node_at_ne, E by done. specialize (Hd k Hk Hp). unfold dir_at in Hd. by rewrite node_at_ne in Hd. }
    split; [apply Hok; [by eexists|done|done]..|]. rewrite <-!app_assoc in H3 |- *. rewrite Hz; [done|by eexists].
  Qed.
  Lemma not_below_R_L q : ¬ below (L ++ q) R.
  Proof using H0. apply apart_not_below, H0. Qed.
  Lemma not_below_L_R q : ¬ below (R ++ q) L.
  Proof using H0. apply apart_not_below, apart_sym, H0. Qed.
  (** Only the remote directory changes. *)
  Lemma partway_remote m m' :
    partway m → wf_fs m' →
    (∀ k, ¬ below k R → m' !! k = m !! k) →
    (∀ q, zielen_dir `prefix_of` q → m' !! (R ++ q) = m !! (R ++ q)) →
    (∀ q n, q ≠ [] → ¬ zielen_dir `prefix_of` q → m' !! (R ++ q) = Some n → m !! (R ++ q) = Some n ∨ arrived q n) →
    (∀ q, replaced m q → m' !! (R ++ q) = m !! (R ++ q) ∨ m !! (L ++ q) = m0 !! (L ++ q)) → partway m'.
  Proof using H0.
    intros P Hwf Ho Hz Ha Hr. split.
    - done.
    - intros k H1 H2. rewrite Ho by done. by apply P.
    - intros q Hq. rewrite Ho by apply not_below_R_L. destruct (pw_local _ P q Hq) as [E|Hrep]; [by left|].
      destruct (Hr q Hrep) as [E|E]; [|by left]. right. destruct Hrep as (H1 & H2 & H3 & H4). unfold replaced.
      rewrite E, Ho by apply not_below_R_L. done.
    - intros q n Hq Hz' E. destruct (Ha q n Hq Hz' E) as [E'|?]; [|done]. by apply (pw_remote _ P).
    - eapply util_same; [exact Hz| |apply P]. intros k Hk. apply Ho. by apply prefix_not_below.
    - intros x. rewrite <-app_assoc, Hz by (rewrite <-app_assoc; by eexists). rewrite app_assoc. by apply (pw_trash _ P).
  Qed.
  Lemma todo_facts G m q : known_names G → partway m → wanted m L None (G m ∪ unsafe_now m) q →
    moved q ∧ m !! (L ++ q) = m0 !! (L ++ q) ∧ q ≠ [] ∧ ¬ zielen_dir `prefix_of` q.
  Proof using H0.
    intros HG P Hw. destruct (wanted_moved G HG m P q Hw) as [Hm E]. split_and!; [done|done|apply Hm|by apply moved_not_util].
  Qed.
  Section copying.
    Context (G : fs → pset) (HG : known_names G) (m : fs) (P : partway m) (now : Z).
    Local Notation todo := (wanted m L None (G m ∪ unsafe_now m)).
    Lemma exists_todo Y q : (∀ p, p ∈ Y → todo p) → Exists (λ x, q `prefix_of` x) Y → ¬ zielen_dir `prefix_of` q.
    Proof using H0 HG P.
      intros HY He Hz. apply Exists_exists in He as (x & Hx & Hp). apply HY in Hx.
      destruct (todo_facts G m x HG P Hx) as (_ & _ & _ & Hn). apply Hn. by trans q.
    Qed.
    Lemma copied_partway Y m1 : (∀ p, p ∈ Y → todo p) → copied now L R false m Y m1 → partway m1.
    Proof using H0 HG P.
      intros HY C. assert (∀ k, ¬ below k R → m1 !! k = m !! k) as Ho.
      { intros k Hk. apply (cp_out _ _ _ _ _ _ _ C); [done|]. by intros [? _]. }
      apply (partway_remote m); [done|apply C|done| | |].
      - intros q Hz. assert (q ≠ []) as Hq by (destruct q; [by apply prefix_nil_inv in Hz|done]).
        rewrite (cp_dst _ _ _ _ _ _ _ C) by done. unfold tr_node.
        rewrite decide_False by (intros [Hin _]; by destruct (todo_facts G m q HG P (HY q Hin)) as (_ & _ & _ & ?)).
        destruct (m !! (R ++ q)); [done|]. rewrite decide_False; [done|]. intros He. by apply (exists_todo Y q HY He).
      - intros q n Hq Hz. rewrite (cp_dst _ _ _ _ _ _ _ C) by done. unfold tr_node.
        destruct (decide _) as [[Hin Hnd]|Hc].
        + intros E. right. destruct (todo_facts G m q HG P (HY q Hin)) as (Hm & E0 & _).
          rewrite E in Hnd. rewrite E in E0. symmetry in E0. destruct n as [c t|l t|t]; [| |done]; split; eauto.
        + destruct (m !! (R ++ q)) as [n'|]; [auto|]. destruct (decide _) as [He|]; [|done]. intros [= <-]. right.
          apply Exists_exists in He as (x & Hx & Hp). destruct (todo_facts G m x HG P (HY x Hx)) as (Hm & E0 & _).
          split; [by exists x|]. destruct (decide (q = x)) as [->|Hne]; [|by eapply holder_dir].
          pose proof Hm as (_ & [n Hn] & _). rewrite Hn in E0.
          destruct n as [| |t]; [exfalso; apply Hc; rewrite E0; done..|]. exists t. by rewrite node_at_app_ne.
      - intros q (H1 & H2 & H3 & H4). destruct (decide (q ∈ Y)) as [Hin|Hn].
        + right. by destruct (todo_facts G m q HG P (HY q Hin)) as (_ & ? & _).
        + left. rewrite (cp_dst _ _ _ _ _ _ _ C) by apply H1. unfold tr_node. rewrite decide_False by by intros [? _].
          destruct H1 as (_ & [n Hn'] & _). by rewrite H3, Hn'.
    Qed.
    Lemma mid_partway l Y p Z m1 m2 : ready L R false m l → (∀ q, q ∈ l ↔ todo q) → l = Y ++ p :: Z →
      copied now L R false m Y m1 → mid now L R m m1 p m2 → partway m2.
    Proof using H0 HG P.
      intros Rd Hl El C Hmid.
      assert (∀ q, q ∈ Y → todo q) as HY by (intros q Hq; apply Hl; rewrite El; apply elem_of_app; by left).
      assert (todo p) as Hp by (apply Hl; rewrite El; apply elem_of_app; right; left).
      assert (p ∉ Y) as HpY.
      { pose proof (rd_nodup _ _ _ _ _ Rd) as Hnd. rewrite El in Hnd. apply NoDup_app in Hnd as (_ & Hnd & _). intros ?. by apply (Hnd p); [|left]. }
      pose proof (copied_partway Y m1 HY C) as P1.
      pose proof (mid_wf _ _ _ _ _ _ Rd Y p Z El m1 C m2 Hmid) as Hwf.
      destruct (todo_facts G m p HG P Hp) as (Hm & E0 & Hpn & Hz). pose proof Hm as (_ & [n Hn] & _).
      assert (m1 !! (L ++ p) = m0 !! (L ++ p)) as E1.
      { rewrite (cp_out _ _ _ _ _ _ _ C); [done|apply not_below_R_L|by intros [? _]]. }
      (* entries that are not below the remote directory or its way to [p] stay *)
      assert (∀ k q, (q = R ++ p → nondir (m !! (L ++ p)) → False) → q `prefix_of` R ++ p → ¬ below k R → (m1 ∪ dirmap now q) !! k = m1 !! k) as Hmk.
      { intros k q _ Hq Hk. rewrite lookup_mk. destruct (m1 !! k) eqn:Ek; [done|]. destruct (decide _) as [[H1 H2]|]; [|done]. exfalso.
        assert (k `prefix_of` R) as HkR by (eapply prefix_below_root; [by trans q|done]).
        assert (dir_at m1 k) as Hd by (eapply wf_dir_anc; [apply P1|apply dir_LR; auto|done]).
        destruct Hd as [t Ht]. rewrite node_at_ne in Ht by done. congruence. }
      assert (∀ k q, q `prefix_of` R ++ p → zielen_dir `prefix_of` k → (m1 ∪ dirmap now q) !! (R ++ k) = m1 !! (R ++ k)) as Hmz.
      { intros k q Hq Hk. rewrite lookup_mk. destruct (m1 !! (R ++ k)) eqn:Ek; [done|]. destruct (decide _) as [[H1 H2]|]; [|done]. exfalso.
        apply Hz. trans k; [done|]. apply (prefix_app_inv R). by trans q. }
      assert (∀ k q n', q `prefix_of` R ++ p → (q = R ++ p → nondir (m !! (L ++ p)) → False) → k ≠ [] → (m1 ∪ dirmap now q) !! (R ++ k) = Some n' →
                m1 !! (R ++ k) = Some n' ∨ arrived k n') as Hma.
      { intros k q n' Hq Hqn Hk. rewrite lookup_mk. destruct (m1 !! (R ++ k)) eqn:Ek; [auto|]. destruct (decide _) as [[H1 H2]|]; [|done].
        intros [= <-]. right. assert (k `prefix_of` p) as Hkp by (apply (prefix_app_inv R); by trans q). split; [by exists p|].
        destruct (decide (k = p)) as [->|Hne]; [|by eapply holder_dir].
        assert (q = R ++ p) as Eq by (apply (anti_symm prefix); done).
        rewrite E0, Hn in Hqn. destruct n as [| |t]; [by destruct (Hqn Eq)..|]. exists t. by rewrite node_at_app_ne. }
      assert (∀ k q, is_Some (m1 !! (R ++ k)) → (m1 ∪ dirmap now q) !! (R ++ k) = m1 !! (R ++ k)) as Hms.
      { intros k q [n' En]. by rewrite lookup_mk, En. }
      assert (parent (R ++ p) `prefix_of` R ++ p) as Hpar by apply prefix_parent.
      assert (parent (R ++ p) ≠ R ++ p) as Hparn.
      { rewrite parent_app by done. intros E. apply app_inv_head in E. destruct (snoc_parent p Hpn) as [x Hx]. rewrite E in Hx.
        apply (f_equal length) in Hx. rewrite app_length in Hx. simpl in Hx. lia. }
      assert (∀ k, zielen_dir `prefix_of` k → R ++ k ≠ R ++ p) as Hzp by (intros k Hk E; apply app_inv_head in E; congruence).
      assert (∀ q, replaced m1 q → q ≠ p ∨ m1 !! (L ++ q) = m0 !! (L ++ q)) as Hrp.
      { intros q _. destruct (decide (q = p)) as [->|]; auto. }
      assert (∀ k n', R ++ k ≠ R ++ p → k ≠ [] → made now R m1 p !! (R ++ k) = Some n' → m1 !! (R ++ k) = Some n' ∨ arrived k n') as Hother.
      { intros k n' _ Hk E. apply (Hma k (parent (R ++ p)) n'); [done| |done|done]. by intros ?. }
      destruct Hmid as [q Hq Hqn|Hnd|c t i k E|l' t k E].
      - apply (partway_remote m1); [done|done| | | |].
        + intros k Hk. by apply Hmk.
        + intros k Hk. by apply Hmz.
        + intros k n' Hk _. by apply Hma.
        + intros k (H1 & _ & H3 & _). left. apply Hms. rewrite H3. apply H1.
      - apply (partway_remote m1); [done|done| | | |].
        + intros k Hk. rewrite lookup_delete_ne by (intros <-; apply Hk, below_app_ne; done). apply Hmk; [|done|done]. by intros ?.
        + intros k Hk. rewrite lookup_delete_ne by (apply not_eq_sym; auto). by apply Hmz.
        + intros k n' Hk _. rewrite lookup_delete_Some. intros [Hne Ek]. by apply Hother.
        + intros k Hk. destruct (Hrp k Hk) as [Hne|?]; [|by right]. left. destruct Hk as (H1 & _ & H3 & _).
          rewrite lookup_delete_ne by (intros E; apply app_inv_head in E; done). apply Hms. rewrite H3. apply H1.
      - apply (partway_remote m1); [done|done| | | |].
        + intros k' Hk. rewrite lookup_insert_ne by (intros <-; apply Hk, below_app_ne; done). apply Hmk; [|done|done]. by intros ?.
        + intros k' Hk. rewrite lookup_insert_ne by (apply not_eq_sym; auto). by apply Hmz.
        + intros k' n' Hk _. rewrite lookup_insert_Some. intros [[Ek <-]|[Hne Ek]].
          * apply app_inv_head in Ek. subst k'. right. split; [done|]. rewrite <-E0. eauto.
          * by apply Hother.
        + intros k' Hk. destruct (Hrp k' Hk) as [Hne|?]; [|by right]. left. destruct Hk as (H1 & _ & H3 & _).
          rewrite lookup_insert_ne by (intros E'; apply app_inv_head in E'; done). apply Hms. rewrite H3. apply H1.
      - apply (partway_remote m1); [done|done| | | |].
        + intros k' Hk. rewrite lookup_insert_ne by (intros <-; apply Hk, below_app_ne; done). apply Hmk; [|done|done]. by intros ?.
        + intros k' Hk. rewrite lookup_insert_ne by (apply not_eq_sym; auto). by apply Hmz.
        + intros k' n' Hk _. rewrite lookup_insert_Some. intros [[Ek <-]|[Hne Ek]].
          * apply app_inv_head in Ek. subst k'. right. split; [done|]. rewrite <-E0. eauto.
          * by apply Hother.
        + intros k' Hk. destruct (Hrp k' Hk) as [Hne|?]; [|by right]. left. destruct Hk as (H1 & _ & H3 & _).
          rewrite lookup_insert_ne by (intros E'; apply app_inv_head in E'; done). apply Hms. rewrite H3. apply H1.
    Qed.
    (** Everything that is to be moved is in the remote directory. *)
    Definition uploaded (m1 : fs) : Prop :=
      ∀ q, moved q → if decide (nondir (m0 !! (L ++ q))) then m1 !! (R ++ q) = m0 !! (L ++ q) else dir_at m1 (R ++ q).
    Lemma copied_uploaded l m1 : (∀ q, q ∈ l ↔ todo q) → copied now L R false m l m1 → uploaded m1.
    Proof using H0 HG P.
      intros Hl C q Hm. pose proof Hm as (Hq & [n Hn] & _).
      pose proof (cp_dst _ _ _ _ _ _ _ C q Hq) as Ed. unfold tr_node in Ed.
      destruct (moved_wanted G HG m P q Hm) as [Hw|Hrep].
      - destruct (todo_facts G m q HG P Hw) as (_ & E0 & _ & Hz). apply Hl in Hw. rewrite E0 in Ed. destruct (decide (nondir _)) as [Hnd|Hnd].
        + by rewrite decide_True in Ed.
        + rewrite decide_False in Ed by tauto. apply dir_at_lookup; [by apply app_ne|].
          destruct (m !! (R ++ q)) as [n'|] eqn:Er.
          * pose proof (pw_remote _ P q n' Hq Hz Er) as Ha. rewrite Hn in Hnd. destruct n as [| |t]; [by destruct Hnd..|].
            destruct n' as [| |t']; [destruct Ha as (_ & ? & ? & ?); congruence|destruct Ha as (_ & ? & ?); congruence|eauto].
          * rewrite decide_True in Ed; [eauto|]. apply Exists_exists. by exists q.
      - destruct Hrep as (_ & Hnd & Er & HLq). rewrite decide_True by done.
        destruct (decide (q ∈ l)) as [Hin|Hn'].
        + apply Hl in Hin. destruct (todo_facts G m q HG P Hin) as (_ & E0 & _). rewrite E0, decide_True in Ed by (split; [by apply Hl|done]). done.
        + rewrite decide_False in Ed by tauto. rewrite Er, Hn in Ed. by rewrite Hn.
    Qed.
  End copying.

  (** Only the local directory changes. *)
  Lemma partway_links m m' :
    partway m → wf_fs m' →
    (∀ k, ¬ below k L → m' !! k = m !! k) →
    (∀ q, q ≠ [] → m' !! (L ++ q) = m !! (L ++ q) ∨ replaced m' q) → partway m'.
  Proof using H0.
    intros P Hwf Ho Hl. split.
    - done.
    - intros k H1 H2. rewrite Ho by done. by apply P.
    - intros q Hq. destruct (Hl q Hq) as [E|?]; [|by right]. rewrite E. destruct (pw_local _ P q Hq) as [?|Hr]; [by left|].
      right. unfold replaced in *. by rewrite E, Ho by apply not_below_L_R.
    - intros q n Hq Hz. rewrite Ho by apply not_below_L_R. by apply P.
    - eapply util_same; [| |apply P]; [by intros q _; apply Ho, not_below_L_R|].
      intros k Hk. apply Ho. intros (x & s & ->). apply (proj1 (cs_apart H0)). trans (L ++ x :: s); [by eexists|done].
    - intros x. rewrite <-app_assoc, Ho by apply not_below_L_R. rewrite app_assoc. by apply (pw_trash _ P).
  Qed.
  Section linking.
    Context (m : fs) (P : partway m) (U : uploaded m) (now : Z) (files dirs : pset).
    Context (Hfiles : ∀ q, q ∈ files → q ≠ [] ∧ ¬ zielen_dir `prefix_of` q ∧ nondir (m !! (R ++ q))).
    Context (Hdirs : ∀ q, q ∈ dirs → q ≠ [] ∧ ¬ zielen_dir `prefix_of` q ∧ dir_at m (R ++ q)).
    Lemma files_moved q : q ∈ files → moved q ∧ nondir (m0 !! (L ++ q)) ∧ m !! (R ++ q) = m0 !! (L ++ q).
    Proof using H0 Hfiles P U.
      intros Hq. destruct (Hfiles q Hq) as (H1 & H2 & H3). destruct (m !! (R ++ q)) as [n|] eqn:E; [|done].
      pose proof (pw_remote _ P q n H1 H2 E) as Ha.
      assert (moved q ∧ nondir (m0 !! (L ++ q))) as [Hm Hn].
      { destruct n as [| |]; [destruct Ha as (? & ? & ? & ->); done|destruct Ha as (? & ? & ->); done|done]. }
      split; [done|]. split; [done|]. specialize (U q Hm). rewrite decide_True in U by done. congruence.
    Qed.
    Lemma dirs_local q : q ∈ dirs → dir_at m (L ++ q).
    Proof using H0 Hdirs P.
      intros Hq. destruct (Hdirs q Hq) as (H1 & H2 & H3). apply dir_at_lookup in H3 as [t H3]; [|by apply app_ne].
      apply local_dir; [done|]. by apply (pw_remote _ P q _ H1 H2 H3).
    Qed.
    Lemma remote_parent_local q r : q ≠ [] → ¬ zielen_dir `prefix_of` q → is_Some (m !! (R ++ q)) → r `prefix_of` q → r ≠ q → dir_at m (L ++ r).
    Proof using H0 P.
      intros H1 H2 [n E] Hr Hne. apply local_dir; [done|]. pose proof (pw_remote _ P q n H1 H2 E) as Ha.
      assert (∃ s, moved s ∧ q `prefix_of` s) as (s & Hs & Hp).
      { destruct n as [| |]; destruct Ha as [Ha _]; [by exists q|by exists q|done]. }
      eapply holder_dir; [exact Hs|by trans q|]. intros ->. apply Hne. by apply (anti_symm prefix).
    Qed.
    Lemma names_remote q : q ∈ dirs ∪ files → q ≠ [] ∧ ¬ zielen_dir `prefix_of` q ∧ is_Some (m !! (R ++ q)).
    Proof using H0 Hdirs Hfiles.
      intros [Hq|Hq]%elem_of_union.
      - destruct (Hdirs q Hq) as (H1 & H2 & H3). apply dir_at_lookup in H3 as [t H3]; [|by apply app_ne]. rewrite H3. eauto.
      - destruct (Hfiles q Hq) as (H1 & H2 & H3). destruct (m !! (R ++ q)); [eauto|done].
    Qed.
    Lemma init_linkable : linkable L files dirs true m.
    Proof using H0 Hdirs Hfiles P U.
      split.
      - apply P.
      - apply dir_LR; auto.
      - intros q Hq. destruct (names_remote q Hq) as (H1 & H2 & [n H3]). split; [done|].
        apply (pw_wf _ P) in H3 as (_ & Hv & _). by apply valid_app in Hv as [_ ?].
      - intros q r Hq Hr Hne Hrn. destruct (names_remote q Hq) as (H1 & H2 & H3). left. by eapply remote_parent_local.
      - intros _ q Hq _ Hd. destruct (files_moved q Hq) as (Hm & Hn & _). apply dir_at_lookup in Hd as [t Hd]; [|apply app_ne, Hm].
        destruct (pw_local _ P q (proj1 Hm)) as [E|(_ & _ & _ & [E|[k E]])]; [|congruence..]. rewrite <-E, Hd in Hn. done.
    Qed.
    Lemma linked_partway Y m1 : (∀ q, q ∈ Y → q ∈ dirs ∪ files) → linked now R L dirs true m Y m1 → partway m1.
    Proof using H0 Hdirs Hfiles P U.
      intros HY K. assert (∀ k, ¬ below k L → m1 !! k = m !! k) as Ho.
      { intros k Hk. apply (li_out _ _ _ _ _ _ _ _ K). intros q Hq ->. apply Hk, below_app_ne, (names_remote q (HY q Hq)). }
      apply (partway_links m); [done|apply K|done|].
      intros q Hq. destruct (decide (q ∈ Y)) as [Hin|Hn].
      - rewrite (li_in _ _ _ _ _ _ _ _ K q Hin). unfold sl_node. destruct (decide (q ∈ dirs)) as [Hd|Hd].
        + left. apply dirs_local in Hd. apply dir_at_lookup in Hd as [t Hd]; [|by apply app_ne]. by rewrite Hd.
        + right. assert (q ∈ files) as Hf by (specialize (HY q Hin); set_solver). destruct (files_moved q Hf) as (H1 & H2 & H3).
          split; [done|]. split; [done|]. rewrite Ho by apply not_below_L_R. split; [done|]. right. exists now.
          rewrite (li_in _ _ _ _ _ _ _ _ K q Hin). unfold sl_node. rewrite decide_False by done. by destruct (m !! (L ++ q)).
      - left. apply (li_out _ _ _ _ _ _ _ _ K). intros r Hr E. apply app_inv_head in E. by subst.
    Qed.
    Lemma linked_delete_partway Y m1 p : (∀ q, q ∈ Y → q ∈ dirs ∪ files) → p ∈ files → linked now R L dirs true m Y m1 →
      partway (delete (L ++ p) m1).
    Proof using H0 Hdirs Hfiles P U.
      intros HY Hp K. pose proof (linked_partway Y m1 HY K) as P1. destruct (files_moved p Hp) as (Hm & Hn & E).
      assert (∀ k, ¬ below k L → m1 !! k = m !! k) as Ho.
      { intros k Hk. apply (li_out _ _ _ _ _ _ _ _ K). intros q Hq ->. apply Hk, below_app_ne, (names_remote q (HY q Hq)). }
      assert (¬ dir_at m1 (L ++ p)) as Hnd.
      { intros Hd. apply dir_at_lookup in Hd as [t Hd]; [|apply app_ne, Hm].
        destruct (pw_local _ P1 p (proj1 Hm)) as [E'|(_ & _ & _ & [E'|[k E']])]; [|congruence..]. rewrite <-E', Hd in Hn. done. }
      apply (partway_links m1); [done| | |].
      - apply wf_delete; [apply P1|]. intros q n Hq [x ->]. apply (pw_wf _ P1) in Hq as (_ & _ & Hd). by rewrite parent_snoc in Hd.
      - intros k Hk. apply lookup_delete_ne. intros <-. apply Hk, below_app_ne, Hm.
      - intros q Hq. destruct (decide (q = p)) as [->|Hne].
        + right. split; [done|]. split; [done|]. rewrite lookup_delete_ne by (apply apart_ne, H0). rewrite lookup_delete.
          split; [|by left]. by rewrite Ho by apply not_below_L_R.
        + left. apply lookup_delete_ne. intros E'. apply app_inv_head in E'. done.
    Qed.
  End linking.
  (** Everything is in its place. *)
  Definition settled (m : fs) : Prop :=
    partway m ∧ uploaded m ∧ ∀ q, moved q → nondir (m0 !! (L ++ q)) → ∃ k, m !! (L ++ q) = Some (Link (abs_path (R ++ q)) k).

  (** ** The program's own directory *)
  Lemma partway_util m m' : partway m → wf_fs m' → util_part m' → (∀ x, m' !! (trdir ++ [x]) = None) →
    (∀ k, ¬ (R ++ zielen_dir) `prefix_of` k → m' !! k = m !! k) → partway m'.
  Proof using H0.
    intros P Hwf Hu Ht Ho.
    assert (∀ q, m' !! (L ++ q) = m !! (L ++ q)) as HL.
    { intros q. apply Ho. intros Hp. apply (not_below_R_L q). apply below_root. destruct Hp as [s Hs]. exists (zielen_dir ++ s).
      rewrite app_assoc. by split. }
    assert (∀ q, ¬ zielen_dir `prefix_of` q → m' !! (R ++ q) = m !! (R ++ q)) as HR.
    { intros q Hz. apply Ho. intros Hp. apply Hz. by apply (prefix_app_inv R). }
    split.
    - done.
    - intros k H1 H2. rewrite Ho; [by apply P|]. intros [s ->]. apply H2. rewrite <-app_assoc. by apply below_app_ne.
    - intros q Hq. rewrite HL. destruct (pw_local _ P q Hq) as [?|Hr]; [by left|]. right. pose proof Hr as (Hm & _).
      unfold replaced in *. rewrite HL, HR; [done|]. by apply moved_not_util.
    - intros q n Hq Hz. rewrite HR by done. by apply P.
    - done.
    - done.
  Qed.
  Lemma mkdirs_out m now s d k : partway m → d `prefix_of` R ++ zielen_dir ++ [s] → ¬ (R ++ zielen_dir) `prefix_of` k →
    (m ∪ dirmap now d) !! k = m !! k.
  Proof using H0.
    intros P Hd Hz. rewrite lookup_mk. destruct (m !! k) eqn:E; [done|]. destruct (decide _) as [[H1 H2]|]; [|done]. exfalso.
    assert (k `prefix_of` R ++ zielen_dir ++ [s]) as H3 by by trans d.
    destruct (prefix_root_cases _ _ _ H3) as [H4|(q & Hq & [r Hr] & ->)].
    - assert (dir_at m k) as [t Ht] by (eapply wf_dir_anc; [apply P|apply dir_LR; auto|done]). rewrite node_at_ne in Ht by done. congruence.
    - apply Hz. apply prefix_app. destruct q as [|x q]; [done|]. injection Hr as <- _. by exists q.
  Qed.
  Lemma mkdirs_partway m now s d : partway m → s = lit "exclude" ∨ s = lit "Trash" → d `prefix_of` R ++ zielen_dir ++ [s] → partway (m ∪ dirmap now d).
  Proof using H0.
    intros P Hs Hd.
    assert (dirs_ok m (R ++ zielen_dir ++ [s])) as Hok by (destruct Hs as [-> | ->]; apply (pw_util _ P)).
    assert (valid_comps (R ++ zielen_dir ++ [s])) as Hv.
    { apply valid_app. split; [eapply wf_dir_valid; [apply P|apply dir_LR; auto]|]. destruct Hs as [-> | ->]; apply (bool_decide_unpack _); vm_compute; exact Logic.I. }
    assert (∀ k, dirs_ok m k → dirs_ok (m ∪ dirmap now d) k) as Hk.
    { intros k Hk q Hq Hp. destruct (Hk q Hq Hp) as [E|[t E]].
      - rewrite lookup_mk, E. destruct (decide _); [|by left]. right. exists now. rewrite node_at_ne by done. rewrite lookup_mk, E. by rewrite decide_True.
      - right. exists t. rewrite node_at_ne in E |- * by done. by rewrite lookup_mk, E. }
    apply (partway_util m); [done| | | |intros k' Hk'; by eapply mkdirs_out].
    - apply wf_mk; [apply P| |].
      + destruct Hd as [r Hr]. rewrite Hr in Hv. by apply valid_app in Hv as [? _].
      + intros q Hq Hp. apply Hok; [done|by trans d].
    - split; [apply Hk, P..|]. pose proof (up_file _ (pw_util _ P)) as Hf. rewrite lookup_mk.
      destruct Hf as [E|(c & t & E)]; rewrite E; [|by eauto]. rewrite decide_False; [by left|]. intros [_ Hp].
      assert (exdir ++ [id] `prefix_of` R ++ zielen_dir ++ [s]) as H3 by by trans d. rewrite <-!app_assoc in H3.
      apply prefix_app_inv, prefix_app_inv in H3. apply prefix_length in H3. simpl in H3. lia.
    - intros x. rewrite lookup_mk, (pw_trash _ P). rewrite decide_False; [done|]. intros [_ Hp].
      assert (trdir ++ [x] `prefix_of` R ++ zielen_dir ++ [s]) as H3 by by trans d. rewrite <-!app_assoc in H3.
      apply prefix_app_inv, prefix_app_inv in H3. apply prefix_length in H3. simpl in H3. lia.
  Qed.
  Lemma mkdirs_run m now s (I : fs → Prop) (Q : res unit → fs → Prop) : partway m → s = lit "exclude" ∨ s = lit "Trash" →
    (∀ m', partway m' → I m') →
    (∀ m', partway m' → (∀ k, ¬ (R ++ zielen_dir) `prefix_of` k → m' !! k = m !! k) →
       (∀ k, dir_at m k → dir_at m' k) → dir_at m' (R ++ zielen_dir ++ [s]) → Q (Ok tt) m') →
    wp (makedirs now (R ++ zielen_dir ++ [s])) I Q m.
  Proof using H0.
    intros P Hs HI HQ.
    assert (valid_comps (R ++ zielen_dir ++ [s])) as Hv.
    { apply valid_app. split; [eapply wf_dir_valid; [apply P|apply dir_LR; auto]|]. destruct Hs as [-> | ->]; apply (bool_decide_unpack _); vm_compute; exact Logic.I. }
    apply makedirs_wp; [apply P|done|destruct Hs as [-> | ->]; apply (pw_util _ P)| |].
    - intros q Hq. apply HI. by eapply mkdirs_partway.
    - apply HQ; [by eapply mkdirs_partway|intros; by eapply mkdirs_out| |].
      + intros k [t Ht]. exists t. destruct (decide (k = [])) as [->|Hk]; [done|]. rewrite node_at_ne in Ht |- * by done. by rewrite lookup_mk, Ht.
      + assert (dirs_ok m (R ++ zielen_dir ++ [s])) as Hok by (destruct Hs as [-> | ->]; apply (pw_util _ P)).
        apply dir_at_lookup; [by apply app_ne|]. rewrite lookup_mk. destruct (Hok (R ++ zielen_dir ++ [s])) as [E|[t Ht]]; [by apply app_ne|done| |].
        * rewrite E, decide_True; [eauto|]. split; [by apply app_ne|done].
        * rewrite node_at_app_ne in Ht by done. rewrite Ht. eauto.
  Qed.
End init.

(** ** The whole of [init] *)
Lemma remote_scan_known C w : mounted C (w_fs w) → v_rscan w = ∅ ∨ v_rscan w = tree (w_fs w) (c_R C) →
  remote_scan C true w = ([], set_rscan (tree (w_fs w) (c_R C)) w, Ok (hide_util (tree (w_fs w) (c_R C)))).
Proof.
  intros Hm Hc. unfold remote_scan, bind, get, eval, mut, ret.
  destruct (true && _) eqn:E; [|rewrite scan_dir_tree by apply Hm; done].
  apply andb_prop in E as [_ E]. apply negb_true_iff, bool_decide_eq_false in E.
  destruct Hc as [?|Hl]; [done|]. by rewrite <-Hl, set_rscan_id.
Qed.
Section whole.
  Context (C : conf) (m0 : fs) (X : pset).
  Local Notation L := (c_L C).
  Local Notation R := (c_R C).
  Local Notation partway := (partway L R (c_id C) m0 X).
  Local Notation moved := (moved L m0 X).
  Context (H0 : clean_start L R (c_id C) m0 X).
  Context (HG : known_names L R (c_id C) m0 X (λ m, c_glob C (c_patterns C) m L)).
  Context (Hit : ∀ l, c_iter C l ≡ₚ l).
  Definition on_way (w w' : world) : Prop := partway (w_fs w') ∧ w_ldb w' = w_ldb w ∧ w_rdb w' = w_rdb w ∧ w_last w' = w_last w.
  Lemma partway_mounted m : partway m → mounted C m.
  Proof using H0. intros P. split; [apply P|eapply dir_LR; eauto|eapply dir_LR; eauto|apply H0]. Qed.
  Definition bare (m : fs) : Prop := ∀ q, q ≠ [] → ¬ zielen_dir `prefix_of` q → m !! (R ++ q) = None.
  Definition linkless : Prop := ∀ q l t, moved q → m0 !! (L ++ q) ≠ Some (Link l t).

  Local Notation util := (R ++ zielen_dir).
  Lemma generate_wp (w : world) (Q : res unit → world → Prop) : partway (w_fs w) →
    (∀ m', partway m' → (∀ k, ¬ util `prefix_of` k → m' !! k = w_fs w !! k) →
      dir_at m' (exclude_dir C) → dir_at m' (trash_dir C) → Q (Ok tt) (set_fs m' w)) → wp (generate C) (on_way w) Q w.
  Proof using H0.
    intros P HQ. unfold generate. apply wp_bind, wp_fsm.
    assert (exclude_dir C = R ++ zielen_dir ++ [lit "exclude"]) as E1 by (unfold exclude_dir, util_dir; by rewrite <-app_assoc).
    assert (trash_dir C = R ++ zielen_dir ++ [lit "Trash"]) as E2 by (unfold trash_dir, util_dir; by rewrite <-app_assoc).
    rewrite E1, E2. eapply mkdirs_run; [exact H0|exact P|by left|by intros m' P'; split_and!|].
    intros m1 P1 S1 K1 D1. apply wp_fsm. cbn [w_fs set_fs]. eapply mkdirs_run; [exact H0|exact P1|by right|by intros m' P'; split_and!|].
    intros m2 P2 S2 K2 D2. rewrite set_fs_fs. apply HQ; [done| |rewrite E1; by apply K2|by rewrite E2].
    intros k Hk. rewrite S2 by done. by apply S1.
  Qed.
  (** What [_setup_dir] does after the files have been copied. *)
  Definition listed (m : fs) (unsafe : pset) (q : path) : Prop :=
    q ≠ [] ∧ ¬ zielen_dir `prefix_of` q ∧ (∃ n, m !! (R ++ q) = Some n ∧ (is_Dir n = false → q ∉ unsafe)).
  Lemma setup_dir_wp (w : world) (unsafe : pset) (Q : res unit → world → Prop) :
    partway (w_fs w) → uploaded L R m0 X (w_fs w) → v_rscan w = ∅ → v_ldb w = ∅ → v_rdb w = ∅ →
    (∀ m' files dirs,
      (∀ q, q ∈ files ++ dirs ↔ listed (w_fs w) unsafe q) →
      (∀ q, q ∈ dirs ↔ q ≠ [] ∧ ¬ zielen_dir `prefix_of` q ∧ dir_at (w_fs w) (R ++ q)) →
      partway m' → (∀ k, ¬ below k L → m' !! k = w_fs w !! k) →
      (∀ q, q ∈ unsafe → m' !! (L ++ q) = w_fs w !! (L ++ q) ) →
      (∀ q, moved q → nondir (m0 !! (L ++ q)) → q ∉ unsafe → m' !! (L ++ q) = Some (Link (abs_path (R ++ q)) (c_now C))) →
      Q (Ok tt) (set_fs m' (set_vrdb (sr_add ∅ files dirs (c_now C)) (set_vldb (sl_add ∅ files dirs 0%Qc false)
                   (set_rscan (tree (w_fs w) R) w))))) →
    wp (setup_dir C unsafe) (on_way w) Q w.
  Proof using H0 Hit.
    intros P U Hs Hl Hr HQ. pose proof (partway_mounted _ P) as Hm. unfold setup_dir.
    apply wp_bind. eapply wp_run; [exact (remote_scan_known C w Hm (or_introl Hs))|constructor|]. cbv beta iota zeta.
    apply wp_bind. eapply wp_run; [refine (remote_scan_known C (set_rscan _ w) Hm (or_intror eq_refl))|constructor|]. cbv beta iota zeta.
    cbn [w_fs set_rscan].
    set (files := c_iter C (elements (dom (no_dirs (hide_util (tree (w_fs w) R))) ∖ unsafe))).
    set (dirs := c_iter C (elements (dom (only_dirs (hide_util (tree (w_fs w) R)))))).
    assert (∀ q, q ∈ files ↔ q ≠ [] ∧ ¬ zielen_dir `prefix_of` q ∧ nondir (w_fs w !! (R ++ q)) ∧ q ∉ unsafe) as Hf.
    { intros q. unfold files. rewrite Hit, elem_of_elements, elem_of_difference, elem_of_dom. unfold is_Some, no_dirs, hide_util.
      setoid_rewrite map_filter_lookup_Some. setoid_rewrite map_filter_lookup_Some. setoid_rewrite tree_lookup. simpl. split.
      - intros [(n & ((Hq & E) & Hz) & Hn) Hu]. rewrite E. done.
      - intros (Hq & Hz & Hn & Hu). destruct (w_fs w !! (R ++ q)) as [n|] eqn:E; [|done]. split; [|done]. exists n. done. }
    assert (∀ q, q ∈ dirs ↔ q ≠ [] ∧ ¬ zielen_dir `prefix_of` q ∧ dir_at (w_fs w) (R ++ q)) as Hd.
    { intros q. unfold dirs. rewrite Hit, elem_of_elements, elem_of_dom. unfold is_Some, only_dirs, hide_util.
      setoid_rewrite map_filter_lookup_Some. setoid_rewrite map_filter_lookup_Some. setoid_rewrite tree_lookup. simpl. split.
      - intros (n & ((Hq & E) & Hz) & Hn). split; [done|]. split; [done|]. apply dir_at_lookup; [by apply app_ne|]. destruct n; [done|done|eauto].
      - intros (Hq & Hz & Hn). apply dir_at_lookup in Hn as [t Hn]; [|by apply app_ne]. exists (Dir t). done. }
    assert (∀ q, q ∈ files → q ∉ dirs ∧ q ∉ parents (files ++ dirs)) as Hfd.
    { intros q (Hq & Hz & Hn & Hu)%Hf. destruct (w_fs w !! (R ++ q)) as [n|] eqn:E; [|done]. split.
      - intros (_ & _ & Hd')%Hd. apply dir_at_lookup in Hd' as [t Hd']; [|by apply app_ne]. rewrite E in Hd'. by injection Hd' as ->.
      - intros (_ & c & Hc & ->)%elem_of_parents.
        assert (c ≠ [] ∧ is_Some (w_fs w !! (R ++ c))) as [Hcn [n' E']].
        { apply elem_of_app in Hc as [(H1 & _ & H2 & _)%Hf|(H1 & _ & H2)%Hd].
          - split; [done|]. destruct (w_fs w !! (R ++ c)); [by eexists|done].
          - split; [done|]. apply dir_at_lookup in H2 as [t ->]; [by eexists|by apply app_ne]. }
        apply (wf_nondir_nochild _ _ _ (pw_wf _ _ _ _ _ _ P) E Hn _ _ E'). rewrite <-parent_app by done. apply child_parent. split; [by apply app_ne|done]. }
    apply wp_bind. apply wp_mut. apply wp_bind. apply wp_mut. apply wp_bind. apply wp_get. apply wp_bind. apply wp_fsm.
    cbn [v_ldb v_rdb w_fs set_vldb set_vrdb set_rscan]. rewrite Hl, Hr.
    set (w1 := set_vrdb _ _).
    set (F := dom (sl_get (sl_add ∅ files dirs 0%Qc false) None (Some false) None)).
    set (D := dom (sl_get (sl_add ∅ files dirs 0%Qc false) None (Some true) None)).
    assert (∀ q, q ∈ F ↔ q ∈ files) as HF by (intros q; by apply sl_add_files).
    assert (∀ q, q ∈ D ↔ q ∈ dirs) as HD by (intros q; by apply sl_add_dirs).
    assert (∀ q, q ∈ F → q ≠ [] ∧ ¬ zielen_dir `prefix_of` q ∧ nondir (w_fs w !! (R ++ q))) as HF' by (intros q (?&?&?&?)%HF%Hf; done).
    assert (∀ q, q ∈ D → q ≠ [] ∧ ¬ zielen_dir `prefix_of` q ∧ dir_at (w_fs w) (R ++ q)) as HD' by (intros q ?%HD%Hd; done).
    clearbody F D.
    assert (∀ m', partway m' → on_way w (set_fs m' w1)) as HI by (intros m' P'; split_and!; done).
    eapply symlink_tree_wp; [by eapply init_linkable|done| | |].
    - intros Y p m2 Hp _ _ _ K _ HY. apply HI. by eapply linked_delete_partway.
    - intros Y m2 K HY. apply HI. by eapply linked_partway.
    - intros Y m2 K HY. apply wp_ret.
      assert (∀ q, q ∈ Y → q ∈ D ∪ F) as HY' by (intros q; by apply HY).
      pose proof (linked_partway _ _ _ _ _ H0 _ P U (c_now C) F D HF' HD' Y m2 HY' K) as P2.
      apply (HQ m2 files dirs).
      + intros q. rewrite elem_of_app. unfold listed. split.
        * intros [(H1 & H2 & H3 & H4)%Hf|(H1 & H2 & H3)%Hd]; (split; [done|]; split; [done|]).
          -- destruct (w_fs w !! (R ++ q)) as [n|]; [|done]. by exists n.
          -- apply dir_at_lookup in H3 as [t H3]; [|by apply app_ne]. by exists (Dir t).
        * intros (H1 & H2 & n & H3 & H4). destruct (is_Dir n) eqn:En.
          -- right. apply Hd. split; [done|]. split; [done|]. apply dir_at_lookup; [by apply app_ne|]. destruct n; [done|done|eauto].
          -- left. apply Hf. rewrite H3. auto.
      + done.
      + done.
      + intros k Hk. apply (li_out _ _ _ _ _ _ _ _ K). intros q Hq ->. apply Hk, below_app_ne.
        apply HY in Hq as [Hq|Hq]%elem_of_union; [by apply HD'|by apply HF'].
      + intros q Hu. destruct (decide (q ∈ Y)) as [Hin|Hn].
        * rewrite (li_in _ _ _ _ _ _ _ _ K q Hin). unfold sl_node. apply HY, elem_of_union in Hin as [Hin|Hin].
          -- rewrite decide_True by done. pose proof (dirs_local _ _ _ _ _ H0 _ P D HD' q Hin) as Hdl.
             apply dir_at_lookup in Hdl as [t ->]; [done|]. apply app_ne, (HD' q Hin).
          -- by apply HF, Hf in Hin as (_ & _ & _ & ?).
        * apply (li_out _ _ _ _ _ _ _ _ K). intros r Hr' E. apply app_inv_head in E. by subst.
      + intros q Hmv Hn Hu. pose proof (U q Hmv) as Uq. rewrite decide_True in Uq by done.
        assert (q ∈ files) as Hq.
        { apply Hf. split; [apply Hmv|]. split; [by eapply moved_not_util|]. by rewrite Uq. }
        rewrite (li_in _ _ _ _ _ _ _ _ K q) by (apply HY, elem_of_union; right; by apply HF).
        unfold sl_node. rewrite decide_False by (rewrite HD; by apply Hfd). by destruct (w_fs w !! (L ++ q)).
  Qed.

  (** [setup_from_local] *)
  Definition ran (w w' : world) : Prop :=
    settled L R (c_id C) m0 X (w_fs w')
    ∧ (∀ k, ¬ below k L → ¬ below k R → w_fs w' !! k = w_fs w !! k)
    ∧ (∃ files dirs, (∀ q, q ∈ files ++ dirs ↔ listed (w_fs w') (unsafe_now L (w_fs w)) q)
        ∧ (∀ q, q ∈ dirs ↔ q ≠ [] ∧ ¬ zielen_dir `prefix_of` q ∧ dir_at (w_fs w') (R ++ q))
        ∧ v_ldb w' = sl_add ∅ files dirs 0%Qc false ∧ v_rdb w' = sr_add ∅ files dirs (c_now C))
    ∧ w_ldb w' = w_ldb w ∧ w_rdb w' = w_rdb w ∧ w_last w' = w_last w.
  Lemma setup_local_wp (w : world) (Q : res unit → world → Prop) :
    partway (w_fs w) → (bare (w_fs w) ∧ c_tty C = false) ∨ linkless →
    v_ldb w = ∅ → v_rdb w = ∅ → v_lscan w = ∅ → v_rscan w = ∅ → v_excl w = None →
    (∀ w', ran w w' → (∀ k, util `prefix_of` k → w_fs w' !! k = w_fs w !! k) → Q (Ok tt) w') →
    wp (setup_from_local C true) (on_way w) Q w.
  Proof using H0 HG Hit.
    intros P Hnl Hl Hr Hsl Hsr Hex HQ. pose proof (partway_mounted _ P) as Hm. unfold setup_from_local.
    assert (current C w) as Hc by (split; by left).
    apply wp_bind. eapply wp_run; [exact (local_scan_run C w Hm true (λ _, Hc))|constructor|]. cbv beta iota zeta.
    apply wp_bind, wp_get. apply current_lscan in Hc. cbn [w_fs set_lscan].
    apply wp_bind. eapply wp_run; [refine (local_scan_run C _ _ true (λ _, Hc)); exact Hm|constructor|]. cbv beta iota zeta.
    apply current_lscan in Hc. cbn [negb]. apply wp_bind. unfold remote_guard. apply wp_catch. apply wp_bind.
    eapply wp_run; [exact (excluded_run C _ Hc)|constructor|]. cbv beta iota zeta. cbn [w_fs set_lscan].
    set (w1 := set_excl _ _). change (unsafe_links (w_fs w) L (tree (w_fs w) L)) with (unsafe_now L (w_fs w)).
    apply wp_fsm. change (w_fs w1) with (w_fs w).
    set (G := λ m : fs, c_glob C (c_patterns C) m L). change (c_glob C (c_patterns C) (w_fs w) L) with (G (w_fs w)).
    eapply transfer_tree_wp.
    - eapply init_transferable; [exact H0|exact HG|exact P|]. destruct Hnl as [[Hb _]|Hnl]; [by left|by right].
    - intros Htty q Hw. destruct Hnl as [[_ Hb]|Hnl]; [congruence|].
      destruct (todo_facts _ _ _ _ _ H0 G _ q HG P Hw) as (Hmv & E & Hq & _). pose proof Hmv as (_ & [n Hn] & _). rewrite Hn in E.
      unfold exists_, stat. assert (FS.resolve true (w_fs w) (L ++ q) = Ok (L ++ q)) as Hres.
      { pose proof (pw_wf _ _ _ _ _ _ P) as Hwf. pose proof E as E'. apply Hwf in E' as (? & ? & ?). apply resolve_follow; [done..|]. rewrite E. destruct n; [done| |done]. by destruct (Hnl q _ _ Hmv Hn). }
      rewrite Hres. by rewrite node_at_app_ne, E.
    - intros l Rd Hin. split_and!.
      + intros Y p Z m1 m2 El Cp Mid. split_and!; try done. cbn [w_fs set_fs]. by eapply (mid_partway _ _ _ _ _ H0 G HG _ P).
      + intros Y Z m1 El Cp. split_and!; try done. cbn [w_fs set_fs]. eapply (copied_partway _ _ _ _ _ H0 G HG _ P); [|exact Cp].
        intros p Hp. apply Hin. rewrite El. apply elem_of_app. by left.
      + intros m1 Cp. cbv beta iota.
        assert (partway m1) as P1 by (eapply (copied_partway _ _ _ _ _ H0 G HG _ P); [|exact Cp]; intros p Hp; by apply Hin).
        pose proof (copied_uploaded _ _ _ _ _ H0 G HG _ P _ l m1 Hin Cp) as U1.
        assert (∀ k, ¬ below k R → m1 !! k = w_fs w !! k) as Ho1.
        { intros k Hk. apply (cp_out _ _ _ _ _ _ _ Cp); [done|]. by intros [? _]. }
        assert (∀ k, util `prefix_of` k → m1 !! k = w_fs w !! k) as Hz1.
        { intros k [s ->]. rewrite <-app_assoc. rewrite (cp_dst _ _ _ _ _ _ _ Cp) by done. unfold tr_node.
          assert (∀ x, x ∈ l → ¬ (zielen_dir ++ s) `prefix_of` x) as Hx.
          { intros x Hx Hp. apply Hin in Hx. destruct (todo_facts _ _ _ _ _ H0 G _ x HG P Hx) as (_ & _ & _ & Hz). apply Hz. trans (zielen_dir ++ s); [by eexists|done]. }
          rewrite decide_False by (intros [Hi _]; by apply (Hx _ Hi)). destruct (w_fs w !! _); [done|]. rewrite decide_False; [done|].
          intros He. apply Exists_exists in He as (x & H1 & H2). by apply (Hx x). }
        eapply wp_trace_mono; [apply (setup_dir_wp (set_fs m1 w1))|]; [done|done|done|done|done| |].
        2:{ intros w' (A1 & A2 & A3 & A4). split_and!; done. }
        cbn [w_fs set_fs]. intros m2 files dirs Hall Hdirs P2 Ho2 Hun Hlk.
        assert (∀ q, m2 !! (R ++ q) = m1 !! (R ++ q)) as HR2 by (intros q; apply Ho2; by eapply not_below_L_R).
        apply HQ.
        * unfold ran, settled. cbn [w_fs w_ldb w_rdb w_last v_ldb v_rdb set_fs set_vrdb set_vldb set_rscan]. split_and!; try done.
          -- intros q Hmv. specialize (U1 q Hmv). destruct (decide _); [by rewrite HR2|].
             apply dir_at_lookup in U1 as [t U1]; [|apply app_ne, Hmv]. apply dir_at_lookup; [apply app_ne, Hmv|]. rewrite HR2. eauto.
          -- intros q Hmv Hn. destruct (decide (q ∈ unsafe_now L (w_fs w))) as [Hu|Hu]; [|eauto].
             rewrite Hun by done. rewrite Ho1 by (by eapply not_below_R_L).
             apply elem_of_unsafe in Hu as (Hq & (t & k & E) & Hu). destruct (pw_local _ _ _ _ _ _ P q Hq) as [E'|(_ & _ & _ & [E'|[k' E']])]; [|congruence|eauto].
             exfalso. destruct Hmv as (_ & _ & Hk). apply Hk. right. rewrite <-Hu. symmetry.
             eapply unsafe_same; [exact H0|exact P|exact E|congruence].
          -- intros k H1 H2. rewrite Ho2 by done. by apply Ho1.
          -- exists files, dirs. split_and!; [|intros q; rewrite Hdirs; unfold dir_at|done|done].
             ++ intros q. rewrite Hall. unfold listed. by rewrite HR2.
             ++ split; intros (H1 & H2 & t & H3); split_and!; try done; exists t; rewrite node_at_app_ne in H3 |- * by done; rewrite HR2 in *; done.
        * cbn [w_fs set_fs]. intros k Hk. rewrite Ho2; [by apply Hz1|]. destruct Hk as [s ->]. rewrite <-app_assoc. by eapply not_below_L_R.
  Qed.

  (** [init_files] from any state on the way, with nothing in the databases. *)
  Lemma init_files_wp (w : world) (Q : res unit → world → Prop) :
    partway (w_fs w) → (bare (w_fs w) ∧ c_tty C = false) ∨ linkless →
    v_ldb w = ∅ → v_rdb w = ∅ → v_lscan w = ∅ → v_rscan w = ∅ → v_excl w = None →
    (∀ w', ran w w' → w_fs w' !! exclude_file C = Some (File (c_patterns C) (c_now C)) →
       util_ok C (w_fs w') → dir_at (w_fs w') (trash_dir C) → Q (Ok tt) w') →
    wp (init_files C false true) (on_way w) Q w.
  Proof using H0 HG Hit.
    intros P Hnl Hl Hr Hsl Hsr Hex HQ. unfold init_files. apply wp_bind. apply generate_wp; [done|].
    intros m1 P1 S1 D1 T1. cbv beta iota. apply wp_bind.
    assert (∀ k, ¬ below k R → m1 !! k = w_fs w !! k) as HoR.
    { intros k Hk. apply S1. intros [s ->]. apply Hk. rewrite <-app_assoc. by apply below_app_ne. }
    assert (∀ q, ¬ zielen_dir `prefix_of` q → m1 !! (R ++ q) = w_fs w !! (R ++ q)) as HzR.
    { intros q Hz. apply S1. intros Hp. apply Hz. by apply (prefix_app_inv R). }
    eapply wp_trace_mono; [apply (setup_local_wp (set_fs m1 w))|]; [done| |done..| |].
    3:{ intros w' (A1 & A2 & A3 & A4). split_and!; done. }
    { destruct Hnl as [[Hb Ht]|?]; [|by right]. left. split; [|done]. intros q Hq Hz. cbn [w_fs set_fs]. rewrite HzR by done. by apply Hb. }
    intros w2 R2 Z2. cbv beta iota. destruct R2 as ((P2 & U2 & K2) & A1 & (files & dirs & A2 & A2' & B1 & B2) & A4 & A5 & A6).
    cbn [w_fs set_fs w_ldb w_rdb w_last] in *.
    assert (unsafe_now L m1 = unsafe_now L (w_fs w)) as Hun.
    { apply set_eq. intros q. rewrite !elem_of_unsafe. unfold unsafe_link.
      assert (m1 !! (L ++ q) = w_fs w !! (L ++ q)) as E by (apply HoR; by eapply not_below_R_L). rewrite E.
      destruct (w_fs w !! (L ++ q)) as [n|] eqn:E'; [|naive_solver].
      by rewrite (readlink_lookup m1 (pw_wf _ _ _ _ _ _ P1) _ _ E), (readlink_lookup _ (pw_wf _ _ _ _ _ _ P) _ _ E'). }
    assert (util_ok C (w_fs w2)) as Hu.
    { split; [|apply H0|].
      - pose proof D1 as D1'. apply dir_at_lookup in D1' as [t D1']; [|unfold exclude_dir; by apply app_ne]. apply dir_at_lookup; [unfold exclude_dir; by apply app_ne|].
        exists t. rewrite Z2; [done|]. by eexists.
      - pose proof (up_file _ _ _ (pw_util _ _ _ _ _ _ P2)) as Hf. rewrite exclude_file_app. rewrite <-!app_assoc in Hf. exact Hf. }
    assert (∀ c k, ¬ util `prefix_of` k → with_excl C c (w_fs w2) !! k = w_fs w2 !! k) as Hwe by (intros; by apply with_excl_other).
    assert (∀ c x, with_excl C c (w_fs w2) !! ((R ++ zielen_dir ++ [lit "Trash"]) ++ [x]) = None) as Htr.
    { intros c x. unfold with_excl. rewrite lookup_insert_ne; [apply (pw_trash _ _ _ _ _ _ P2)|]. rewrite exclude_file_app, <-!app_assoc. intros E%app_inv_head%app_inv_head. by injection E. }
    assert (∀ c, partway (with_excl C c (w_fs w2))) as Pe.
    { intros c. pose proof (partway_mounted _ P2) as Hm2. eapply partway_util; [exact H0|exact P2|by apply with_excl_mounted| |exact (Htr c)|by apply Hwe].
      pose proof (with_excl_util C c _ (pw_wf _ _ _ _ _ _ P2) Hu) as [W1 W2 W3].
      pose proof (pw_util _ _ _ _ _ _ P2) as [V1 V2 V3].
      assert (∀ k, dirs_ok (w_fs w2) k → ¬ exclude_file C `prefix_of` k → dirs_ok (with_excl C c (w_fs w2)) k) as Hok.
      { intros k Hk Hn q Hq Hp. unfold dir_at. rewrite node_at_ne by done. assert (with_excl C c (w_fs w2) !! q = w_fs w2 !! q) as ->.
        { apply lookup_insert_ne. intros <-. done. }
        destruct (Hk q Hq Hp) as [?|[t Ht]]; [by left|]. right. exists t. by rewrite node_at_ne in Ht. }
      split.
      - apply Hok; [done|]. rewrite exclude_file_app. intros Hp%prefix_app_inv%prefix_app_inv. apply prefix_length in Hp. simpl in Hp. lia.
      - apply Hok; [done|]. rewrite exclude_file_app. intros Hp%prefix_app_inv%prefix_app_inv. apply prefix_length in Hp. simpl in Hp. lia.
      - rewrite exclude_file_app in W3. rewrite <-!app_assoc. exact W3. }
    apply add_exclude_wp; [apply P2|done| |].
    - intros i. split_and!; try done. apply Pe.
    - assert (∀ q, ¬ zielen_dir `prefix_of` q → with_excl C (c_patterns C) (w_fs w2) !! (R ++ q) = w_fs w2 !! (R ++ q)) as HzE.
      { intros q Hz. apply Hwe. intros Hp. apply Hz. by apply (prefix_app_inv R). }
      assert (∀ k, ¬ below k R → with_excl C (c_patterns C) (w_fs w2) !! k = w_fs w2 !! k) as HoE.
      { intros k Hk. apply Hwe. intros [s ->]. apply Hk. rewrite <-app_assoc. by apply below_app_ne. }
      apply HQ; [|cbn [w_fs set_fs]; apply lookup_insert|by apply with_excl_util; [apply P2|]|].
      2:{ apply dir_at_lookup in T1 as [t T1]; [|unfold trash_dir; by apply app_ne]. apply dir_at_lookup; [unfold trash_dir; by apply app_ne|]. exists t.
        cbn [w_fs set_fs]. unfold with_excl. rewrite lookup_insert_ne; [rewrite Z2; [done|by eexists]|].
        unfold exclude_file, exclude_dir, trash_dir. rewrite <-!app_assoc. intros E%app_inv_head. by injection E. }
      unfold ran, settled. cbn [w_fs set_fs w_ldb w_rdb w_last v_ldb v_rdb]. split_and!; try done.
      + intros q Hmv. specialize (U2 q Hmv). assert (¬ zielen_dir `prefix_of` q) as Hz by by eapply moved_not_util.
        destruct (decide _); [by rewrite HzE|].
        apply dir_at_lookup in U2 as [t U2]; [|apply app_ne, Hmv]. apply dir_at_lookup; [apply app_ne, Hmv|]. rewrite HzE by done. eauto.
      + intros q Hmv Hn. rewrite HoE by (by eapply not_below_R_L). by apply K2.
      + intros k H1 H2. rewrite HoE by done. rewrite A1 by done. by apply HoR.
      + exists files, dirs. split_and!; [|intros q; rewrite A2'; unfold dir_at|done|done].
        * intros q. rewrite A2, Hun. unfold listed. split; intros (H1 & H2 & H3); (split; [done|]; split; [done|]); [by rewrite HzE|by rewrite HzE in H3].
        * split; intros (H1 & H2 & t & H3); (split_and!; [done|done|]); exists t; rewrite node_at_app_ne in H3 |- * by done; rewrite HzE in *; done.
  Qed.
  (** There is not enough space. *)
  Lemma init_files_full_wp (w : world) (Q : res unit → world → Prop) :
    partway (w_fs w) → v_lscan w = ∅ → v_rscan w = ∅ → v_excl w = None →
    (∀ w', on_way w w' → Q (Err AvailableSpaceErr) w') → wp (init_files C false false) (on_way w) Q w.
  Proof using H0.
    intros P Hsl Hsr Hex HQ. unfold init_files. apply wp_bind. apply generate_wp; [done|].
    intros m1 P1 S1 D1 T1. cbv beta iota. apply wp_bind. unfold setup_from_local.
    pose proof (partway_mounted _ P1) as Hm. assert (current C (set_fs m1 w)) as Hc by (split; by left).
    apply wp_bind. eapply wp_run; [exact (local_scan_run C (set_fs m1 w) Hm true (λ _, Hc))|constructor|]. cbv beta iota zeta.
    apply wp_bind, wp_get. apply current_lscan in Hc. cbn [w_fs set_lscan set_fs].
    apply wp_bind. eapply wp_run; [refine (local_scan_run C _ _ true (λ _, Hc)); exact Hm|constructor|]. cbv beta iota zeta.
    cbn [negb]. apply wp_throw. apply HQ. split_and!; done.
  Qed.
End whole.
