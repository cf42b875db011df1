(** The SQLite databases at the level of their tables:
    /repo/zielen/containerbase.py 113-223 ([SyncDBFile]),
    /repo/zielen/profile.py 441-830 ([ProfileDBFile]) and
    /repo/zielen/userdata.py 252-507 ([RemoteDBFile]).

    A table with a primary key and ON CONFLICT IGNORE is a finite map from the
    key; inserting rows keeps the present rows and, among the new ones, the
    first ([table ∪ list_to_map rows]).  The hash of a path is an arbitrary
    function of the path and the salt; [[]] is the absent salt.  Salts come
    from an arbitrary stream.  Priorities are exact rationals instead of
    floats, times are integers. *)
From Coq Require Import QArith Qcanon.
From Verif Require Export Path.
From stdpp Require Import options.

(** profile.py 480-487 and 752: a row of the local [nodes] table. *)
Record ldata := LData { ld_dir : bool; ld_prio : Qc; ld_local : bool }.
(** userdata.py 288-294: a row of the remote [nodes] table. *)
Record rdata := RData { rd_dir : bool; rd_last : Z }.
Global Instance ldata_eq_dec : EqDecision ldata.
Proof. solve_decision. Defined.
Global Instance rdata_eq_dec : EqDecision rdata.
Proof. solve_decision. Defined.

(** profile.py 480-508, userdata.py 288-316: the tables. *)
Record tables (D : Type) := Tables {
  nodes : gmap Z (path * D);              (* id -> path, data *)
  closure : gmap (Z * Z) nat;             (* ancestor, descendant -> depth *)
  collisions : gmap path str              (* path -> salt *)
}.
Arguments Tables {D}. Arguments nodes {D}. Arguments closure {D}. Arguments collisions {D}.

(** [create]: profile.py 449-497, userdata.py 262-309. *)
Definition t_empty {D} : tables D := Tables ∅ ∅ ∅.

Section tables.
  Context {D : Type} (H : path → str → Z) (salts : nat → str).
  Implicit Types t : tables D.

  (** containerbase.py 189-215, [_get_path_id]. *)
  Definition path_id t (p : path) : Z := H p (default [] (collisions t !! p)).

  (** profile.py 603-611, userdata.py 355-363: one pass of INSERT INTO
      collisions over the batch [ids]; [n] counts the salts drawn, [cnt] the
      rows inserted. *)
  Definition collide_row (nd : gmap Z (path * D)) (st : gmap path str * nat * nat) (pi : path * Z) :=
    let '(coll, n, cnt) := st in let '(p, i) := pi in
    match nd !! i with
    | Some (q, _) =>
        if bool_decide (q = p) then (coll, n, cnt)
        else match coll !! p with
             | Some _ => (coll, S n, cnt)
             | None => (<[p := salts n]> coll, S n, S cnt)
             end
    | None => (coll, n, cnt)
    end.

  (** profile.py 577-613, userdata.py 332-365: the [while True] loop.  [None]
      when [fuel] passes do not suffice. *)
  Fixpoint resolve (fuel : nat) t (n : nat) (paths : list path) : option (tables D * nat) :=
    match fuel with
    | O => None
    | S f =>
        let ids := map (λ p, (p, path_id t p)) paths in
        let '(coll, n', cnt) := foldl (collide_row (nodes t)) (collisions t, n, O) ids in
        let t' := Tables (nodes t) (closure t) coll in
        if Nat.eqb cnt 0 then Some (t', n') else resolve f t' n' paths
    end.

  (** profile.py 615-619, userdata.py 368-371: INSERT INTO nodes. *)
  Definition insert_nodes t (mk : path → D) (paths : list path) : gmap Z (path * D) :=
    nodes t ∪ list_to_map (map (λ p, (path_id t p, (p, mk p))) paths).

  (** profile.py 620-626, userdata.py 372-378: INSERT INTO closure, one path. *)
  Definition closure_rows (c : gmap (Z * Z) nat) (pid parid : Z) : list (Z * Z * nat) :=
    omap (λ kv, if bool_decide (kv.1.2 = parid) then Some (kv.1.1, pid, S kv.2) else None)
         (map_to_list c)
    ++ [(pid, pid, O)].
  Definition insert_closure_row t (c : gmap (Z * Z) nat) (p : path) : gmap (Z * Z) nat :=
    let pid := path_id t p in
    let parid := if bool_decide (parent p = []) then pid else path_id t (parent p) in
    c ∪ list_to_map (closure_rows c pid parid).

  (** UPDATE nodes SET ... WHERE id = :path_id for one id. *)
  Definition upd_id (f : D → D) (nd : gmap Z (path * D)) (i : Z) : gmap Z (path * D) :=
    alter (λ pd, (pd.1, f pd.2)) i nd.
  (** ... and for a batch of paths (the ids are computed first). *)
  Definition t_upd t (f : D → D) (ps : list path) : tables D :=
    Tables (foldl (upd_id f) (nodes t) (map (path_id t) ps)) (closure t) (collisions t).

  (** The data of the immediate children of an id: JOIN with closure, depth 1. *)
  Definition t_children t (i : Z) : list D :=
    omap (λ kv, if bool_decide (kv.1.1 = i) && Nat.eqb kv.2 1 then snd <$> nodes t !! kv.1.2 else None)
         (map_to_list (closure t)).
  (** profile.py 499-554: the UPDATEs of [_update_priority] and
      [_update_local], [g] computing the new row from the children. *)
  Definition t_recompute t (g : list D → D → D) (ps : list path) : tables D :=
    foldl (λ t i, Tables (upd_id (g (t_children t i)) (nodes t) i) (closure t) (collisions t))
          t (map (path_id t) (ancestry ps)).

  (** The parents of a batch, without the empty path: profile.py 583-585,
      688-689, 709-710, 809-810. *)
  Definition parents (ps : list path) : list path :=
    List.filter (λ p, negb (bool_decide (p = []))) (remove_dups (map parent ps)).

  (** The order in which [add_paths] handles its arguments: profile.py
      572-575, userdata.py 327-330.  [iter] is the set's iteration order. *)
  Definition add_order (iter : list path → list path) (files dirs : list path) : list path :=
    isort depth_le (iter (remove_dups (files ++ dirs))).

  (** The common part of [add_paths]: profile.py 572-627, userdata.py 327-379. *)
  Definition t_add t (n : nat) (mk : path → D) (set_dir : D → D) (paths : list path)
    : option (tables D * nat) :=
    match resolve (S (length paths)) t n paths with
    | None => None
    | Some (t1, n') =>
        let nd := insert_nodes t1 mk paths in
        let cl := foldl (insert_closure_row t1) (closure t1) paths in
        let t2 := Tables nd cl (collisions t1) in
        Some (t_upd t2 set_dir (parents paths), n')
    end.

  (** profile.py 712-727, userdata.py 434-447: DELETE with cascading foreign
      keys, one id; then the clean-up of the collisions. *)
  Definition rm_id t (i : Z) : tables D :=
    let gone := λ j, bool_decide (is_Some (closure t !! (i, j)) ∧ is_Some (nodes t !! j)) in
    Tables (filter (λ kv, gone kv.1 = false) (nodes t))
           (filter (λ kv, gone kv.1.1 = false ∧ gone kv.1.2 = false) (closure t))
           (collisions t).
  Definition t_rm t (ps : list path) : tables D :=
    let t1 := foldl rm_id t (map (path_id t) ps) in
    let live := map (λ kv, kv.2.1) (map_to_list (nodes t1)) in
    Tables (nodes t1) (closure t1) (filter (λ kv, kv.1 ∈ live) (collisions t1)).

  (** profile.py 732-755, userdata.py 449-469, [get_path_info]. *)
  Definition t_info t (p : path) : option D := snd <$> nodes t !! path_id t p.

  (** profile.py 757-795, userdata.py 471-507, [get_paths]; [P] is the
      condition on the row.  An empty root means no root. *)
  Definition t_query t (root : option path) (P : D → bool) : gmap path D :=
    let start := match root with Some [] => None | Some r => Some (path_id t r) | None => None end in
    list_to_map (omap (λ kv,
      match nodes t !! kv.1.2 with
      | Some (p, d) =>
          if (match start with None => true | Some i => bool_decide (kv.1.1 = i) end) && P d
          then Some (p, d) else None
      | None => None
      end) (map_to_list (closure t))).
End tables.

(** ** The local database *)
Definition sum_prio (l : list ldata) : Qc := foldr (λ d s, (ld_prio d + s)%Qc) 0%Qc l.
Definition all_local (l : list ldata) : bool :=
  match l with [] => false | _ => forallb ld_local l end.
Definition set_prio (q : Qc) (d : ldata) : ldata := LData (ld_dir d) q (ld_local d).
Definition set_local (b : bool) (d : ldata) : ldata := LData (ld_dir d) (ld_prio d) b.
Definition set_ldir (b : bool) (d : ldata) : ldata := LData b (ld_prio d) (ld_local d).
(** profile.py 516-525: COALESCE(SUM(priority), 0). *)
Definition g_prio (cs : list ldata) (d : ldata) : ldata := set_prio (sum_prio cs) d.
(** profile.py 544-553: COALESCE(MIN(local), 0). *)
Definition g_local (cs : list ldata) (d : ldata) : ldata := set_local (all_local cs) d.

Definition opt_apply {A B} (f : A → B → B) (o : option A) : B → B :=
  match o with Some a => f a | None => id end.

(** MAX(priority) over the rows with directory = 0: profile.py 640-643. *)
Definition max_prio (l : list ldata) : option Qc :=
  foldr (λ d acc, if ld_dir d then acc
                  else Some (match acc with
                             | None => ld_prio d
                             | Some q => if bool_decide (q ≤ ld_prio d)%Qc then ld_prio d else q
                             end)) None l.

Section local.
  Context (H : path → str → Z) (salts : nat → str) (iter : list path → list path).
  Implicit Types t : tables ldata.

  Definition l_refresh t (ps : list path) : tables ldata :=
    t_recompute H (t_recompute H t g_prio ps) g_local ps.

  (** profile.py 556-631, [add_paths]; [None]: the collision loop does not
      end. *)
  Definition l_add t (n : nat) (files dirs : list path) (prio : Qc) (local : bool)
    : option (tables ldata * nat) :=
    let paths := add_order iter files dirs in
    match t_add H salts t n (λ p, LData (bool_decide (p ∈ dirs)) prio local) (set_ldir true) paths with
    | None => None
    | Some (t', n') => Some (l_refresh t' (parents paths), n')
    end.

  (** profile.py 633-645, [add_inflated]; [None] also stands for the
      IntegrityError of a NULL priority. *)
  Definition l_add_inflated t (n : nat) (files dirs : list path) : option (tables ldata * nat) :=
    match max_prio (map (λ kv, kv.2.2) (map_to_list (nodes t))) with
    | Some q => l_add t n files dirs q true
    | None => if bool_decide (files ++ dirs = []) then l_add t n [] [] 0%Qc true else None
    end.

  (** profile.py 647-695, [update_paths]. *)
  Definition l_update t (ps : list path) (dir : option bool) (prio : option Qc) (local : option bool)
    : tables ldata :=
    let t1 := t_upd H t (opt_apply set_ldir dir) ps in
    let t2 := t_upd H t1 (opt_apply set_prio prio) ps in
    let t3 := t_upd H t2 (opt_apply set_local local) ps in
    l_refresh t3 (parents ps).

  (** profile.py 697-730, [rm_paths]. *)
  Definition l_rm t (ps : list path) : tables ldata := l_refresh (t_rm H t ps) (parents ps).

  (** profile.py 797-819, [increment]. *)
  Definition l_increment t (ps : list path) (q : Qc) : tables ldata :=
    t_recompute H (t_upd H t (λ d, set_prio (ld_prio d + q)%Qc d) ps) g_prio (parents ps).

  (** profile.py 821-830, [adjust_all]. *)
  Definition l_adjust t (q : Qc) : tables ldata :=
    Tables ((λ pd, (pd.1, set_prio (ld_prio pd.2 * q)%Qc pd.2)) <$> nodes t) (closure t) (collisions t).

  (** profile.py 757-795, [get_paths]. *)
  Definition opt_eqb (o : option bool) (b : bool) : bool :=
    match o with None => true | Some b' => Bool.eqb b b' end.
  Definition l_get_paths t (root : option path) (dir local : option bool) : gmap path ldata :=
    t_query H t root (λ d, opt_eqb dir (ld_dir d) && opt_eqb local (ld_local d)).
End local.

(** ** The remote database *)
Definition set_rdir (b : bool) (d : rdata) : rdata := RData b (rd_last d).
Definition set_last (z : Z) (d : rdata) : rdata := RData (rd_dir d) z.
Section remote.
  Context (H : path → str → Z) (salts : nat → str) (iter : list path → list path).
  Implicit Types t : tables rdata.

  (** userdata.py 318-382, [add_paths]; [now] is [time.time()]. *)
  Definition r_add t (n : nat) (files dirs : list path) (now : Z) : option (tables rdata * nat) :=
    t_add H salts t n (λ p, RData (bool_decide (p ∈ dirs)) now) (set_rdir true)
      (add_order iter files dirs).
  (** userdata.py 384-416, [update_paths]. *)
  Definition r_update t (ps : list path) (dir : option bool) (last : option Z) : tables rdata :=
    t_upd H (t_upd H t (opt_apply set_rdir dir) ps) (opt_apply set_last last) ps.
  (** userdata.py 418-447, [rm_paths]. *)
  Definition r_rm t (ps : list path) : tables rdata := t_rm H t ps.
  (** userdata.py 471-507, [get_paths]. *)
  Definition r_get_paths t (root : option path) (dir : option bool) (min_last : option Z)
    : gmap path rdata :=
    t_query H t root (λ d, opt_eqb dir (rd_dir d)
      && match min_last with None => true | Some z => bool_decide (z < rd_last d)%Z end).
End remote.
