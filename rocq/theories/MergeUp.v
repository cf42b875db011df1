(** A sync of a clean state: local changes are sent. From here on the remote
    directory may differ from the one that was scanned: [w0] is the world in which the
    command started and [row] tells what is known of the rows of files.  *)
From Coq Require Import QArith Qcanon.
From Verif Require Export MergeNone.
From Verif Require Import ResetProofs.
From stdpp Require Import options.

(** The scans made in [w0] serve for [w], and known paths have their rows. *)
Record stands_for (C : conf) (w : world) (X : pset) (w0 : world) (row : path → ldata → Prop) : Prop := {
  sf_rscan : tree (with_excl C (c_patterns C) (w_fs w0)) (c_R C) ≠ ∅;
  sf_lscan : tree (w_fs w0) (c_L C) = tree (w_fs w) (c_L C);
  sf_excl_r : ∀ p, p ∈ X → is_Some (r_at C (w_fs w0) p) ↔ known (w_ldb w) p;
  sf_row : ∀ p x x0, w_ldb w !! p = Some x0 → row p x → x = x0
}.

Section sync.
  Set Default Proof Using "Type*".
  Context (C : conf) (w : world) (last : Z) (X : pset).
  Local Notation m := (w_fs w).
  Local Notation ldb := (w_ldb w).
  Local Notation rdb := (w_rdb w).
  Context (H : clean_x C m ldb rdb last X).
  Context (Hit : ∀ l, c_iter C l ≡ₚ l) (Hrows : ∀ l, c_rows C l ≡ₚ l).
  Context (Hvl : v_ldb w = ldb) (Hvr : v_rdb w = rdb) (Hfresh : FMProofs.fresh w) (Hlast : w_last w = Some last).
  Context (w0 : world) (row : path → ldata → Prop) (Hsf : stands_for C w X w0 row).
  Local Notation L := (c_L C).
  Local Notation R := (c_R C).
  Local Notation l_at := (l_at C m).
  Local Notation r_at := (r_at C m).
  Local Notation known := (known ldb).
  Local Notation stray := (stray C m ldb X).
  Local Notation merged := (merged C m ldb last X).
  Local Notation new_l := (new_l C m ldb X).
  Local Notation gone_l := (gone_l C m ldb).
  Local Notation gone_r := (gone_r C m ldb).
  Local Notation edited_l := (edited_l C m ldb last).
  Local Notation edited_r := (edited_r C m ldb rdb last).
  Local Notation trashed := (trashed C m ldb).
  Local Notation m1 := (with_excl C (c_patterns C) m).
  Local Notation intact := (intact C w last X).
  Local Notation tsafe := (tsafe C w).
  Local Notation tsafe_r := (tsafe_r C w last X H Hit Hrows Hvl Hvr Hfresh Hlast).
  Local Notation tin := (tin C w).
  Local Notation to_trash := (to_trash C w).
  Local Notation stored := (stored w0).
  Local Notation seen := (seen C w0 X).
  Local Notation utl := (utl C w).
  Local Notation less := (less C w).
  Local Notation lessing := (lessing C w).
  Local Notation rkind := (rkind C w).
  Local Notation kind := (kind C w last X).
  Local Notation HR0 := (HR0 C w last X H Hit Hrows Hvl Hvr Hfresh Hlast).
  Local Notation HL0 := (HL0 C w last X H Hit Hrows Hvl Hvr Hfresh Hlast).
  Local Notation LR_ne := (LR_ne C w last X H Hit Hrows Hvl Hvr Hfresh Hlast).
  Local Notation util_not_L := (util_not_L C w last X H Hit Hrows Hvl Hvr Hfresh Hlast).
  Local Notation util_not_R := (util_not_R C w last X H Hit Hrows Hvl Hvr Hfresh Hlast).
  Local Notation util_out := (util_out C w last X H Hit Hrows Hvl Hvr Hfresh Hlast).
  Local Notation m1_less := (m1_less C w last X H Hit Hrows Hvl Hvr Hfresh Hlast).
  Local Notation m1_other := (m1_other C w last X H Hit Hrows Hvl Hvr Hfresh Hlast).
  Local Notation less_lessing := (less_lessing C w last X H Hit Hrows Hvl Hvr Hfresh Hlast).
  Local Notation kind_over := (kind_over C w last X H Hit Hrows Hvl Hvr Hfresh Hlast).
  Local Notation kind_merged := (kind_merged C w last X H Hit Hrows Hvl Hvr Hfresh Hlast).
  Local Notation kind_ldb := (kind_ldb C w last X H Hit Hrows Hvl Hvr Hfresh Hlast).
  Local Notation tsame_utl := (tsame_utl C w last X H Hit Hrows Hvl Hvr Hfresh Hlast).
  Local Notation L_out := (L_out C w last X H Hit Hrows Hvl Hvr Hfresh Hlast).
  Local Notation R_out := (R_out C w last X H Hit Hrows Hvl Hvr Hfresh Hlast).
  Local Notation out_dir := (out_dir C w last X H Hit Hrows Hvl Hvr Hfresh Hlast).
  Local Notation iter_elem := (iter_elem C w last X H Hit Hrows Hvl Hvr Hfresh Hlast).
  Local Notation below_not_both := (below_not_both C w last X H Hit Hrows Hvl Hvr Hfresh Hlast).
  Local Notation util_below := (util_below C w last X H Hit Hrows Hvl Hvr Hfresh Hlast).
  Local Notation top_gone_l := (top_gone_l C w last X H Hit Hrows Hvl Hvr Hfresh Hlast).
  Local Notation top_gone_r := (top_gone_r C w last X H Hit Hrows Hvl Hvr Hfresh Hlast).
  Local Notation stray_not_gone := (stray_not_gone C w last X H Hit Hrows Hvl Hvr Hfresh Hlast).
  Local Notation ltree_m1 := (ltree_m1 C w last X H Hit Hrows Hvl Hvr Hfresh Hlast).
  Local Notation rtree_m1 := (rtree_m1 C w last X H Hit Hrows Hvl Hvr Hfresh Hlast).
  Local Notation not_under_util := (not_under_util C w last X H Hit Hrows Hvl Hvr Hfresh Hlast).
  Local Notation changed_merged := (changed_merged _ _ _ _ _ _ H).
  Local Notation tsame := (tsame C w).
  Local Notation K2 := (K2 C w last X).
  Local Notation km := (km C w last X).
  (** At a crash. *)
  Definition act (w' : world) : Prop := intact (w_fs w') ∧ stored w'.
  (** The rows of the local database. *)
  Definition lkind (K : path → option bool) (w' : world) : Prop :=
    (∀ p, ld_dir <$> v_ldb w' !! p = K p) ∧ ∀ p x, v_ldb w' !! p = Some x → ld_dir x = false → row p x.
  (** The rows of the remote database, apart from what is to be sent. *)
  Definition rready (w' : world) : Prop :=
    (∀ p, rd_dir <$> v_rdb w' !! p = km p) ∧
    ∀ p d, v_rdb w' !! p = Some d → ¬ (new_l p ∨ edited_l p) → rd_last d = stamp (c_now C) rdb p.
  Lemma remote_scan_seen w' : seen w' → remote_scan C true w' = ([], w', Ok (hide_util (tree (with_excl C (c_patterns C) (w_fs w0)) R))).
  Proof.
    intros (_ & Er & _). unfold remote_scan, bind, get, eval, mut, ret. rewrite Er.
    destruct (true && _) eqn:E; [done|]. apply andb_false_iff in E as [E|E]; [done|]. apply negb_false_iff, bool_decide_eq_true in E.
    by destruct (sf_rscan _ _ _ _ _ Hsf).
  Qed.
  Lemma excluded_seen w' : seen w' → excluded C w' = ([], w', Ok X).
  Proof. intros (_ & _ & E). unfold excluded, bind, get, ret. by rewrite E. Qed.

  (** ** Sending the local changes *)
  (** The remote directory is the merge; the local one has lost what was
      deleted in the remote one. *)
  Record sent (m' : fs) : Prop := {
    sn_wf : wf_fs m';
    sn_out : ∀ k, ¬ below k L → ¬ below k R → m' !! k = m !! k;
    sn_l : ∀ q, q ≠ [] → (gone_r q → m' !! (L ++ q) = None) ∧ (¬ gone_r q → m' !! (L ++ q) = l_at q);
    sn_r : ∀ q, q ≠ [] → ¬ zielen_dir `prefix_of` q → like (m' !! (R ++ q)) (merged q);
    sn_util : utl m';
    sn_trash : tin m'
  }.
  (** The paths sent have the current time in the remote database. *)
  Definition rsent (w' : world) : Prop :=
    (∀ p, rd_dir <$> v_rdb w' !! p = km p) ∧ since (c_now C) (λ p, new_l p ∨ edited_l p) rdb (v_rdb w').
  Definition changed (q : path) : Prop :=
    edited_l q ∨ (new_l q ∧ ((∃ n, l_at q = Some n ∧ is_Dir n = false) ∨ new_l (parent q))).
  Lemma changed_merged_l q : changed q → ∃ n, merged q = Some n ∧ (is_Dir n = false → l_at q = Some n) ∧ is_Some (l_at q) ∧ ¬ gone_r q.
  Proof.
    intros [He|[Hn _]].
    - pose proof (merged_edit _ _ _ _ _ _ H _ He) as E. destruct He as (Hk & c & t & El & Ht). exists (File c t). rewrite E, El.
      split; [done|]. split; [done|]. split; [by eexists|]. intros Hg. destruct (cl_gone _ _ _ _ _ _ H q (or_intror Hg)) as [Hne _].
      apply Hne. split; [done|]. eauto.
    - destruct (changed_merged q (or_introl Hn)) as [n En]. exists n. split; [done|]. split; [|split; [apply Hn|]].
      + intros Hd. destruct (r_at q) as [n'|] eqn:Er; [|by rewrite <-(merged_up _ _ _ _ _ _ H)].
        destruct Hn as ([nl Hl] & Hk & _). rewrite (merged_new_r _ _ _ _ _ _ H q n') in En by done.
        destruct (cl_new _ _ _ _ _ _ H q nl n' Hk Hl Er) as [[_ Hd']|(c & t & -> & ->)]; congruence.
      + intros [Hk _]. by destruct Hn as (_ & ? & _).
  Qed.
  Lemma changed_no_link q t k : changed q → l_at q ≠ Some (Link t k).
  Proof.
    intros [(_ & c & t' & E & _)|[(_ & Hk & Hs) _]] El; [congruence|]. destruct (cl_link_l _ _ _ _ _ _ H q t k El) as [[? _]|?]; done.
  Qed.
  Lemma changed_r q n : changed q → is_Dir n = false → r_at q = Some n → (edited_l q ∨ l_at q = Some n) ∧ ∃ c t, n = File c t.
  Proof.
    intros [He|[([nl Hl] & Hk & _) _]] Hd Er.
    - split; [by left|]. destruct n as [c t|t k|]; [by eauto|by apply (cl_link_r _ _ _ _ _ _ H) in Er|done].
    - destruct (cl_new _ _ _ _ _ _ H q nl n Hk Hl Er) as [[_ ?]|(c & t & -> & ->)]; [congruence|]. eauto.
  Qed.
  Lemma utl_same m' m'' : (∀ k, util_dir C `prefix_of` k → m'' !! k = m' !! k) → utl m' → utl m''.
  Proof.
    intros Ht [[Hd Hid Hf] Htr Hl Hrs].
    assert (He : util_dir C `prefix_of` exclude_dir C) by by eexists.
    assert (Hf' : util_dir C `prefix_of` exclude_file C) by (unfold exclude_file; etrans; [exact He|by eexists]).
    assert (HT : util_dir C `prefix_of` trash_dir C) by by eexists.
    assert (Hdir : ∀ d, util_dir C `prefix_of` d → dir_at m' d → dir_at m'' d).
    { intros d Hp [t Hd']. exists t. rewrite node_at_ne in *; [by rewrite Ht|..]; intros ->; destruct Hp as [s E]; unfold util_dir in E; by destruct R. }
    split; [split|..].
    - by apply Hdir.
    - done.
    - by rewrite Ht.
    - by apply Hdir.
    - intros x t k. rewrite Ht by (etrans; [exact HT|by eexists]). apply Hl.
    - intros k Hk Hk'. rewrite Ht by done. by apply Hrs.
  Qed.
  Lemma tin_file m' : tin m' → ∀ p x s c t, trashed p → list.last p = Some x → r_at (p ++ s) = Some (File c t) →
    ∃ t', m' !! (trash_dir C ++ x :: s) = Some (File c t').
  Proof.
    intros [Hn _] p x s c t Hp Hx E. destruct (Hn p x Hp Hx) as [H0 Hs]. destruct s as [|y s].
    - rewrite app_nil_r in E. rewrite H0, E. by eexists.
    - rewrite Hs, E by done. eauto.
  Qed.
  Lemma tin_same m' m'' : (∀ k, util_dir C `prefix_of` k → m'' !! k = m' !! k) → tin m' → tin m''.
  Proof.
    intros Hu [Hn Ho]. assert (∀ s, m'' !! (trash_dir C ++ s) = m' !! (trash_dir C ++ s)) as E.
    { intros s. apply Hu. unfold trash_dir. rewrite <-app_assoc. by eexists. }
    split.
    - intros p x Hp Hx. rewrite E. split; [by apply Hn|]. intros s Hs. rewrite E. by apply Hn.
    - intros x s Hx. rewrite E. by apply Ho.
  Qed.
  Section send.
    Context (m5 : fs) (Hls : less gone_r gone_l m5) (Htin : tin m5) (S : pset) (HS : ∀ p, p ∈ S ↔ new_l p ∨ edited_l p).
    Local Notation fl := (Some (c_iter C (elements S))).
    Lemma m5_l q : q ≠ [] → ¬ gone_r q → m5 !! (L ++ q) = l_at q.
    Proof. intros Hq. apply (ls_l _ _ _ _ _ Hls q Hq). Qed.
    Lemma m5_r q : q ≠ [] → ¬ zielen_dir `prefix_of` q → ¬ gone_l q → m5 !! (R ++ q) = r_at q.
    Proof. intros Hq Hz. apply (ls_r _ _ _ _ _ Hls q Hq Hz). Qed.
    Lemma m5_r_none q : q ≠ [] → ¬ zielen_dir `prefix_of` q → m5 !! (R ++ q) = r_at q ∨ (m5 !! (R ++ q) = None ∧ gone_l q).
    Proof.
      intros Hq Hz. destruct (ls_r _ _ _ _ _ Hls q Hq Hz) as [E1 E2]. destruct (decide (gone_l q)); [right; split; [by apply E1|done]|left; by apply E2].
    Qed.
    Lemma m5_l_none q : q ≠ [] → m5 !! (L ++ q) = l_at q ∨ (m5 !! (L ++ q) = None ∧ gone_r q).
    Proof.
      intros Hq. destruct (ls_l _ _ _ _ _ Hls q Hq) as [E1 E2]. destruct (decide (gone_r q)); [right; split; [by apply E1|done]|left; by apply E2].
    Qed.
    Lemma S_at p : p ∈ S → p ≠ [] ∧ is_Some (l_at p) ∧ m5 !! (L ++ p) = l_at p ∧ (∀ t k, l_at p ≠ Some (Link t k)).
    Proof.
      intros Hp%HS. assert (Hng : ¬ gone_r p).
      { intros Hg. destruct Hp as [Hp|Hp]; [by destruct Hp as (_ & ? & _), Hg|].
        by destruct (cl_gone _ _ _ _ _ _ H p (or_intror Hg)). }
      assert (is_Some (l_at p)) as Hs.
      { destruct Hp as [Hp|(_ & c & t & -> & _)]; [apply Hp|by eexists]. }
      assert (p ≠ []) as Hp0 by (destruct Hs as [n Hs]; by apply l_at_some in Hs as [? _]).
      split; [done|]. split; [done|]. split; [by apply m5_l|]. intros t k El.
      destruct Hp as [(_ & Hk & Hns)|(_ & c & t' & E & _)]; [|congruence]. by destruct (cl_link_l _ _ _ _ _ _ H p t k El) as [[? _]|?].
    Qed.
    Lemma dir_l_at p : p ∈ S → dir_at m5 (L ++ p) ↔ ∃ t, l_at p = Some (Dir t).
    Proof.
      intros Hp. destruct (S_at p Hp) as (Hp0 & _ & E & _). rewrite dir_at_lookup by (by destruct L; destruct p). by rewrite E.
    Qed.
    Lemma wanted_changed q : wanted m5 L fl ∅ q ↔ changed q.
    Proof.
      unfold wanted. split.
      - intros [_ (p & Hp%iter_elem & Hcase)]. destruct (S_at p Hp) as (Hp0 & [n Hn] & E & Hnl). rewrite dir_l_at in Hcase by done.
        pose proof (proj1 (HS p) Hp) as Hp'. destruct Hcase as [[Hnd ->]|([t Ht] & Hb & Hs)].
        + destruct Hp' as [Hp'|Hp']; [right; split; [done|left]|by left]. exists n. split; [done|]. destruct n; try done. destruct Hnd. eauto.
        + destruct Hp' as [Hp'|(_ & c & t' & E' & _)]; [|congruence].
          pose proof Hb as [Hpq Hne]%MergeFacts.below_prefix. assert (q ≠ []) as Hq0 by (intros ->; by apply prefix_nil_inv in Hpq).
          assert (is_Some (l_at q)) as Hlq. { destruct (m5_l_none q Hq0) as [E'|[E' _]]; rewrite E' in Hs; [done|by destruct Hs]. }
          right. split; [by eapply (new_l_below _ _ _ _ _ _ H)|right].
          assert (p `prefix_of` parent q) as Hpp by (apply prefix_strict_parent; [done|congruence]).
          eapply (new_l_below _ _ _ _ _ _ H); [exact Hp'|done|]. destruct Hlq as [nq Hlq].
          destruct (l_at_up _ _ _ _ _ _ H q (parent q) nq Hlq (parent_prefix q) (parent_ne q Hq0)) as [t' ->]; [|by eexists].
          intros E'. rewrite E' in Hpp. by apply prefix_nil_inv in Hpp.
      - intros Hc. split; [set_solver|].
        assert (∀ p, p ∈ S → ¬ dir_at m5 (L ++ p) → ∃ p', p' ∈ c_iter C (elements S) ∧ (¬ dir_at m5 (L ++ p') ∧ p = p' ∨ dir_at m5 (L ++ p') ∧ below p p' ∧ is_Some (m5 !! (L ++ p)))) as Hself.
        { intros p Hp Hd. exists p. split; [by apply iter_elem|]. by left. }
        destruct Hc as [He|[Hn [(n & Hl & Hd)|Hpar]]].
        + apply Hself; [apply HS; by right|]. rewrite dir_l_at by (apply HS; by right). intros [t Ht]. destruct He as (_ & c & t' & E & _). congruence.
        + apply Hself; [apply HS; by left|]. rewrite dir_l_at by (apply HS; by left). intros [t Ht]. by rewrite Ht in Hl; simplify_eq.
        + exists (parent q). assert (parent q ∈ S) as HpS by (apply HS; by left). split; [by apply iter_elem|right].
          destruct (S_at _ HpS) as (Hp0 & _ & _). pose proof Hn as ([n Hl] & Hk & _).
          assert (q ≠ []) as Hq0 by (by intros ->). rewrite dir_l_at by done. split; [|split].
          * destruct (l_at_up _ _ _ _ _ _ H q (parent q) n Hl (parent_prefix q) (parent_ne q Hq0) Hp0) as [t Ht]. eauto.
          * apply MergeFacts.below_prefix. split; [apply parent_prefix|]. intros E. by apply (parent_ne q).
          * destruct (S_at q) as (_ & Hs & E & _); [apply HS; by left|]. by rewrite E.
    Qed.
    Lemma changed_at q : changed q → ours q ∧ m5 !! (L ++ q) = l_at q.
    Proof.
      intros Hc. destruct (changed_merged_l q Hc) as (n & Hm & _ & _ & Hg). pose proof (merged_ours _ _ _ _ _ _ H _ _ Hm) as Ho. split; [done|].
      apply m5_l; [apply Ho|done].
    Qed.
    Lemma zielen_snoc (q : path) x : q ≠ [] → zielen_dir `prefix_of` q ++ [x] → zielen_dir `prefix_of` q.
    Proof using Type. intros Hq Hz. destruct q as [|y q]; [done|]. apply prefix_cons_inv_1 in Hz as <-. by eexists. Qed.
    Lemma send_ready : transferable false m5 L R fl ∅.
    Proof.
      assert (Hwf := ls_wf _ _ _ _ _ Hls).
      assert (HnL : ∀ q t k, q ≠ [] → ¬ zielen_dir `prefix_of` q → m5 !! (R ++ q) ≠ Some (Link t k)).
      { intros q t k Hq Hz E. destruct (m5_r_none q Hq Hz) as [E'|[E' _]]; rewrite E in E'; [|done]. by apply eq_sym, (cl_link_r _ _ _ _ _ _ H) in E'. }
      split.
      - done.
      - apply (cl_apart _ _ _ _ _ _ H).
      - eapply out_dir; [apply (ls_out _ _ _ _ _ Hls)|by left].
      - eapply out_dir; [apply (ls_out _ _ _ _ _ Hls)|by right].
      - intros p Hp%iter_elem. destruct (S_at p Hp) as (Hp0 & [n Hn] & E & Hnl). rewrite Hn in E.
        destruct (is_Dir n) eqn:Ed.
        + left. apply dir_l_at; [done|]. destruct n; try done. eauto.
        + right. split; [by rewrite E|]. split.
          * rewrite dir_l_at by done. intros [t Ht]. by rewrite Hn in Ht; simplify_eq.
          * exists n. split; [|done]. apply stat_lookup_follow; [done|done|]. destruct n as [|t k|]; try done. by destruct (Hnl t k).
      - intros q Hq%wanted_changed. destruct (changed_at q Hq) as ((Hq0 & Hv & Hz) & E).
        destruct (changed_merged_l q Hq) as (n & Hm & Hml & [nl Hl] & Hg). unfold compat. rewrite E, Hl.
        pose proof (merged_kind_l _ _ _ _ _ _ H _ _ _ Hm Hl) as Ek.
        destruct nl as [c t|t k|t].
        + destruct (m5_r_none q Hq0 Hz) as [E'|[E' _]]; [|by left]. rewrite E'. destruct (r_at q) as [n'|] eqn:Er; [|by left].
          right; left. destruct (changed_r q n' Hq) as (_ & c' & t' & ->); [|done|by eauto].
          by rewrite <-(merged_kind_at _ _ _ _ _ _ H _ _ _ Hm Er).
        + by apply changed_no_link in Hl.
        + split.
          * destruct (m5_r_none q Hq0 Hz) as [E'|[E' _]]; [|by left]. destruct (r_at q) as [n'|] eqn:Er; [right|by left].
            apply dir_at_lookup; [by destruct R; destruct q|]. rewrite E'. pose proof (merged_kind_at _ _ _ _ _ _ H _ _ _ Hm Er) as Ek'.
            rewrite Ek in Ek'. destruct n'; try done. eauto.
          * intros x Hx. assert (q ++ [x] ≠ []) as Hqx by by destruct q. split.
            -- intros Hw%wanted_changed l k. destruct (changed_at _ Hw) as (_ & E'). rewrite E'. by apply changed_no_link.
            -- intros l k Ec. exfalso. eapply (HnL (q ++ [x])); [done| |done]. intros Hz'. by apply Hz, (zielen_snoc q x).
      - intros q p Hq%wanted_changed Hp Hne Hp0. destruct (changed_merged_l q Hq) as (n & Hm & _).
        destruct (merged_anc _ _ _ _ _ _ H q p n Hm Hp Hne Hp0) as [t Ht]. destruct (merged_ours _ _ _ _ _ _ H _ _ Ht) as (_ & _ & Hz).
        destruct (m5_r_none p Hp0 Hz) as [E'|[E' _]]; [|by left]. destruct (r_at p) as [n'|] eqn:Er; [right|by left].
        apply dir_at_lookup; [by destruct R; destruct p|]. rewrite E'. pose proof (merged_kind_at _ _ _ _ _ _ H _ _ _ Ht Er) as Ek'.
        destruct n'; try done. eauto.
      - done.
    Qed.
    (** Local files are there all the time, and so are the remote files that
        are not replaced. *)
    Lemma send_intact m' : (∀ k, ¬ below k R → m' !! k = m5 !! k) →
      (∀ q n, q ≠ [] → m5 !! (R ++ q) = Some n → is_Dir n = false → ¬ changed q → m' !! (R ++ q) = Some n) → intact m'.
    Proof.
      intros Ho Hr. assert (Hl : ∀ q, q ≠ [] → m' !! (L ++ q) = m5 !! (L ++ q)).
      { intros q Hq. apply Ho. apply below_not_both. by apply below_app_ne. }
      split.
      - intros k Hk Hk'. rewrite Ho by done. by apply (ls_out _ _ _ _ _ Hls).
      - intros p Hs. assert (p ≠ []) as Hp0. { destruct Hs as ([n Hn] & _). by apply l_at_some in Hn as [? _]. }
        rewrite Hl by done. apply m5_l; [done|]. by apply stray_not_gone.
      - intros p c t Hm. destruct (merged_ours _ _ _ _ _ _ H _ _ Hm) as (Hp0 & _ & Hz).
        assert (Hgl : ¬ gone_l p). { intros Hg. rewrite (merged_gone _ _ _ _ _ _ H) in Hm; [done|by left]. }
        assert (Hgr : ¬ gone_r p). { intros Hg. rewrite (merged_gone _ _ _ _ _ _ H) in Hm; [done|by right]. }
        destruct (merged_inv _ _ _ _ _ _ H _ _ Hm) as [(_ & _ & E)|[(_ & _ & E)|(Hne & _ & E)]].
        + right. rewrite Hl by done. by rewrite m5_l.
        + right. rewrite Hl by done. by rewrite m5_l.
        + destruct (decide (l_at p = Some (File c t))) as [El|Hnl]; [right; rewrite Hl by done; by rewrite m5_l|].
          left. apply Hr; [done|by rewrite m5_r|done|]. intros Hc. by destruct (changed_r p (File c t) Hc eq_refl E) as [[?|?] _].
      - intros Hcl p x s c t Hp Hx E. right. destruct (tin_file _ Htin p x s c t Hp Hx E) as [t' Ht']. exists t'.
        unfold trash_dir, util_dir in *. rewrite <-!app_assoc in *. apply Hr; [done|done|done|].
        intros Hc. destruct (changed_at _ Hc) as ((_ & _ & Hz) & _). apply Hz. by eexists.
    Qed.
    Context (l : list path) (Hl : ∀ q, q ∈ l ↔ wanted m5 L fl ∅ q).
    Local Notation now := (c_now C).
    Lemma l_changed q : q ∈ l ↔ changed q.
    Proof. by rewrite Hl, wanted_changed. Qed.
    Lemma copied_keeps Y m' : (∀ q, q ∈ Y → changed q) → copied now L R false m5 Y m' →
      (∀ k, ¬ below k R → m' !! k = m5 !! k) ∧
      (∀ q n, q ≠ [] → m5 !! (R ++ q) = Some n → ¬ changed q → m' !! (R ++ q) = Some n).
    Proof.
      intros HY Hc. split.
      - intros k Hk. apply (cp_out _ _ _ _ _ _ _ Hc); [done|by intros [? _]].
      - intros q n Hq E Hd. rewrite (cp_dst _ _ _ _ _ _ _ Hc) by done. unfold tr_node. rewrite decide_False by (intros [Hin _]; by apply Hd, HY). by rewrite E.
    Qed.
    Lemma send_mid Y p Z m1' m2' : ready L R false m5 l → l = Y ++ p :: Z → copied now L R false m5 Y m1' → mid now L R m5 m1' p m2' → intact m2'.
    Proof.
      intros Rd El Hc Hm.
      assert (HY : ∀ q, q ∈ Y → changed q) by (intros q Hq; apply l_changed; rewrite El; apply elem_of_app; by left).
      assert (Hp : changed p) by (apply l_changed; rewrite El; apply elem_of_app; right; left).
      destruct (copied_keeps Y m1' HY Hc) as [H1 H2].
      destruct (changed_at p Hp) as ((Hp0 & _ & _) & _).
      pose proof (mid_wf _ _ _ _ _ _ Rd Y p Z El m1' Hc m2' Hm) as Hwf.
      pose proof (mid_other _ _ _ _ _ _ _ Hp0 Hm) as Ho.
      apply send_intact.
      - intros k Hk. rewrite <-H1 by done. destruct (Ho k) as [?|(E & E' & Hkp)]; [intros ->; apply Hk; by apply below_app_ne|done|exfalso].
        destruct (prefix_root_cases _ _ _ Hkp) as [HkR|(q & Hq & _ & ->)]; [|apply Hk; by apply below_app_ne].
        assert (Hd : dir_at m1' R).
        { destruct (out_dir m5 R (ls_out _ _ _ _ _ Hls) (or_intror eq_refl)) as [t Ht]. exists t. rewrite node_at_ne in * by apply HR0.
          rewrite H1 by apply R_out. done. }
        pose proof (wf_dir_anc _ (cp_wf _ _ _ _ _ _ _ Hc) _ _ Hd HkR) as [t Ht].
        destruct (decide (k = [])) as [-> |Hk0]; [by rewrite wf_nil in E'|]. rewrite node_at_ne in Ht by done. congruence.
      - intros q n Hq E Hd Hnc. destruct (Ho (R ++ q)) as [->|(E' & _)].
        + intros E'. apply app_inv_head in E' as ->. done.
        + by apply H2.
        + rewrite (H2 q n) in E' by done. done.
    Qed.
    Lemma send_copied Y Z m' : l = Y ++ Z → copied now L R false m5 Y m' → intact m'.
    Proof.
      intros El Hc. assert (HY : ∀ q, q ∈ Y → changed q) by (intros q Hq; apply l_changed; rewrite El; apply elem_of_app; by left).
      destruct (copied_keeps Y m' HY Hc) as [H1 H2]. apply send_intact; [done|]. intros q n Hq E _ Hd. by apply H2.
    Qed.
    Lemma send_done m' : copied now L R false m5 l m' → sent m'.
    Proof.
      intros Hc. destruct (copied_keeps l m' (λ q, proj1 (l_changed q)) Hc) as [H1 _].
      assert (Hzs : ∀ q, zielen_dir `prefix_of` q → m' !! (R ++ q) = m5 !! (R ++ q)).
      { intros q Hz. assert (q ≠ []) as Hq by (intros ->; by apply prefix_nil_inv in Hz). rewrite (cp_dst _ _ _ _ _ _ _ Hc) by done. unfold tr_node.
        rewrite decide_False by (intros [Hin%l_changed _]; by destruct (changed_at q Hin) as ((_ & _ & ?) & _)).
        destruct (m5 !! (R ++ q)); [done|]. rewrite decide_False; [done|]. intros (x & Hx%l_changed & Hqx)%Exists_exists.
        destruct (changed_at x Hx) as ((_ & _ & Hzx) & _). apply Hzx. by etrans. }
      split.
      - apply (cp_wf _ _ _ _ _ _ _ Hc).
      - intros k Hk Hk'. rewrite H1 by done. by apply (ls_out _ _ _ _ _ Hls).
      - intros q Hq. rewrite H1 by (apply below_not_both; by apply below_app_ne). by apply (ls_l _ _ _ _ _ Hls).
      - intros q Hq Hz. rewrite (cp_dst _ _ _ _ _ _ _ Hc) by done. unfold tr_node.
        destruct (decide (q ∈ l ∧ nondir (m5 !! (L ++ q)))) as [[Hin Hnd]|Hno].
        { apply l_changed in Hin. destruct (changed_at q Hin) as (_ & E). destruct (changed_merged_l q Hin) as (n & Hm & Hml & [nl Hnl] & _).
          rewrite E, Hm in *. rewrite Hnl in Hnd. cbn in Hnd. rewrite (Hml ltac:(by rewrite (merged_kind_l _ _ _ _ _ _ H _ _ _ Hm Hnl))).
          by destruct n. }
        assert (Hned : ¬ edited_l q).
        { intros He. apply Hno. assert (changed q) as Hch by by left. split; [by apply l_changed|].
          destruct (changed_at q Hch) as (_ & ->). by destruct He as (_ & c & t & -> & _). }
        destruct (m5 !! (R ++ q)) as [n|] eqn:En.
        { destruct (m5_r_none q Hq Hz) as [E|[E _]]; [|congruence]. rewrite En in E.
          destruct (decide (gone_l q)) as [Hg|Hg].
          - destruct (ls_r _ _ _ _ _ Hls q Hq Hz) as [E1 _]. rewrite E1 in En by done. done.
          - rewrite (merged_r _ _ _ _ _ _ H q n) by done. by destruct n. }
        destruct (decide (Exists (λ x, q `prefix_of` x) l)) as [He|He].
        { apply Exists_exists in He as (x & Hx & Hqx). apply l_changed in Hx as Hch. destruct (changed_merged_l x Hch) as (n & Hm & _ & [nl Hnl] & _).
          destruct (decide (q = x)) as [->|Hne].
          - destruct (changed_at x Hch) as (_ & E). rewrite Hm. rewrite E, Hnl in Hno.
            pose proof (merged_kind_l _ _ _ _ _ _ H _ _ _ Hm Hnl) as Ek. destruct nl; [by destruct Hno|by destruct Hno|]. by destruct n.
          - destruct (merged_anc _ _ _ _ _ _ H x q n Hm Hqx Hne Hq) as [t ->]. done. }
        destruct (merged q) as [n|] eqn:Em; [exfalso|done].
        destruct (merged_inv _ _ _ _ _ _ H _ _ Em) as [(Hnew & Er & El)|[(? & _)|(_ & Hg & Er)]]; [|done|].
        + assert (Hnc : ¬ changed q). { intros Hch. apply He, Exists_exists. exists q. split; [by apply l_changed|done]. }
          destruct (is_Dir n) eqn:Ed; [|apply Hnc; right; eauto].
          destruct n as [| |t]; try done. destruct (cl_empty _ _ _ _ _ _ H q t Hnew El Er) as [[x Hx]|Hpar]; [|apply Hnc; right; auto].
          apply He, Exists_exists. exists (q ++ [x]). split; [|by eexists]. apply l_changed. right.
          split; [eapply (new_l_below _ _ _ _ _ _ H); [done|by eexists|done]|right]. by rewrite parent_snoc.
        + rewrite m5_r, Er in En by done. done.
      - assert (Hu : ∀ k, util_dir C `prefix_of` k → m' !! k = m5 !! k).
        { intros k [s ->]. unfold util_dir. rewrite <-app_assoc. apply Hzs. by eexists. }
        eapply utl_same; [exact Hu|apply (ls_util _ _ _ _ _ Hls)].
      - eapply tin_same; [|exact Htin]. intros k [s ->]. unfold util_dir. rewrite <-app_assoc. apply Hzs. by eexists.
    Qed.
  End send.
  Lemma update_remote_wp (Q : res unit → world → Prop) w' S :
    (∀ p, p ∈ S ↔ new_l p ∨ edited_l p) → less gone_r gone_l (w_fs w') → tin (w_fs w') → stored w' → seen w' → lkind km w' → rready w' →
    (∀ w'', sent (w_fs w'') → stored w'' → seen w'' → lkind km w'' → rsent w'' → Q (Ok tt) w'') →
    wp (update_remote C S) act Q w'.
  Proof.
    intros HS Hls Htin Hst Hse Hlk [Hrk Hsi] HQ. unfold update_remote, remote_guard. apply wp_bind, wp_catch, wp_fsm.
    eapply transfer_tree_wp; [by apply send_ready|..].
    - intros _ q Hq. apply wanted_changed in Hq; [|done..]. destruct (changed_at _ Hls Htin S HS q Hq) as ((Hq0 & _) & E).
      destruct (changed_merged_l q Hq) as (n & _ & _ & [nl Hl] & _). rewrite Hl in E. unfold exists_.
      rewrite (stat_lookup_follow _ (ls_wf _ _ _ _ _ Hls) _ nl); [done|done|]. destruct nl as [|t k|]; [done| |done]. by apply changed_no_link in Hl.
    - intros l Rd Hl. split; [|split].
      + intros Y p Z m1' m2' El Hc Hm. split; [|done]. by eapply send_mid.
      + intros Y Z m' El Hc. split; [|done]. by eapply send_copied.
      + intros m' Hc. cbn beta iota. apply wp_mut. apply HQ; [|done|done|..].
        * by eapply send_done.
        * done.
        * split; [|cbn [v_rdb set_vrdb set_fs]; apply since_update; [exact Hsi|]; intros p; by rewrite iter_elem].
          intros p. cbn [v_rdb set_vrdb set_fs]. by rewrite sr_update_kind.
  Qed.
End sync.
