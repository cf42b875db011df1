(** Which files stay local: /repo/zielen/filelogic.py 184-358. *)
From Coq Require Import QArith Qcanon.
From Verif Require Export DBSpec.
From stdpp Require Import options.

(** An entry of [adjusted_priorities]: filelogic.py 213-229, 283-292. *)
Record row := Row { r_path : path; r_adj : Qc; r_size : Z }.

(** filelogic.py 217-227, 280-289: the priority, divided by the size if
    [account]; 0 for size 0. *)
Definition adj (account : bool) (prio : Qc) (size : Z) : Qc :=
  if account then if (size =? 0)%Z then 0%Qc else (prio / Q2Qc (inject_Z size))%Qc else prio.

(** filelogic.py 235-238, 299-302: sort by path, then by priority with
    [reverse=True] (equal elements keep their order). *)
Definition path_le (a b : row) : bool := str_leb (rel_path (r_path a)) (rel_path (r_path b)).
Definition prio_ge (a b : row) : bool := bool_decide (r_adj b ≤ r_adj a)%Qc.
Definition rank (rows : list row) : list row := isort prio_ge (isort path_le rows).

(** filelogic.py 213-229.  [size] is the scan of the remote directory; [None]
    is the KeyError of a path that the scan does not have. *)
Definition mk_row (account : bool) (size : path → option Z) (pd : path * ldata) : option row :=
  match size pd.1 with
  | Some z => Some (Row pd.1 (adj account (ld_prio pd.2) z) z)
  | None => None
  end.

(** filelogic.py 246-251. *)
Definition pick_file (S : Z) (st : Z * gset path) (r : row) : Z * gset path :=
  let '(rem, sel) := st in
  let n := (rem - r_size r + S)%Z in
  if (0 <? n)%Z then (n, {[r_path r]} ∪ sel) else (rem, sel).

(** filelogic.py 184-253, [prioritize_files]: [rows] are the file rows of the
    local database in the order of the dict, [S] is the block size. *)
Definition prioritize_files (account : bool) (S : Z) (size : path → option Z)
    (rows : list (path * ldata)) (exclude : gset path) (limit : Z) : option (Z * gset path) :=
  rs ← mapM (mk_row account size)
         (List.filter (λ pd, negb (bool_decide (Exists (λ e, e `prefix_of` pd.1) (elements exclude)))) rows);
  Some (foldl (pick_file S) (limit, ∅) (rank rs)).

(** filelogic.py 281-284: the size of a directory is that of all paths of the
    remote database at and below it. *)
Definition dir_size (size : path → option Z) (rdb : gmap path rdata) (p : path) : option Z :=
  foldr Z.add 0%Z <$> mapM size (elements (dom (sr_get rdb (Some p) None None))).

Record dstate := DState { ds_rem : Z; ds_dirs : gset path; ds_sub : gset path; ds_files : gset path }.

(** filelogic.py 322-356: the body of the loop over the directories. *)
Definition contained (ldb : gmap path ldata) (dir : bool) (p : path) : gset path :=
  dom (sl_get ldb (Some p) (Some dir) None).
Definition zsum {A} (f : A → Z) (l : list A) : Z := foldr (λ x s, (f x + s)%Z) 0%Z l.
Definition pick_dir (S storage : Z) (ldb : gmap path ldata) (dsize : path → Z) (st : dstate) (r : row) : dstate :=
  let p := r_path r in
  if bool_decide (p ∈ ds_sub st) then st
  else if (storage <? r_size r)%Z then st
  else
    let cf := contained ldb false p in
    let cd := contained ldb true p in
    let sub := zsum dsize (elements ((cf ∪ cd) ∩ ds_dirs st)) in
    let n := (ds_rem st - r_size r + sub + Z.of_nat (size (cf ∖ ds_files st)) * S)%Z in
    if (0 <=? n)%Z then
      DState n ({[p]} ∪ (ds_dirs st ∖ cd)) (ds_sub st ∪ cd) (ds_files st ∪ cf)
    else st.

(** filelogic.py 255-358, [prioritize_dirs]: [iter] is the order of the dict of
    directory rows. *)
Definition mk_drow (account : bool) (size : path → option Z) (rdb : gmap path rdata) (pd : path * ldata) : option row :=
  match dir_size size rdb pd.1 with
  | Some z => Some (Row pd.1 (adj account (ld_prio pd.2) z) z)
  | None => None
  end.
Definition prioritize_dirs (account : bool) (S storage : Z) (size : path → option Z)
    (ldb : gmap path ldata) (rdb : gmap path rdata)
    (iter : list (path * ldata) → list (path * ldata)) (limit : Z) : option (Z * gset path) :=
  rs ← mapM (mk_drow account size rdb) (iter (map_to_list (sl_get ldb None (Some true) None)));
  let dsize := λ p, default 0%Z (list_to_map (M:=gmap path Z) (map (λ r, (r_path r, r_size r)) rs) !! p) in
  let n := stdpp.base.size (dom (sl_get ldb None (Some false) None)) in
  let st := foldl (pick_dir S storage ldb dsize) (DState (limit - Z.of_nat n * S) ∅ ∅ ∅) (rank rs) in
  Some (ds_rem st, ds_dirs st).

(** sync.py 118-121: both, one after the other; [excl] is the size of the
    excluded local files; [sized] is the scan of everything, [sizef] that of
    files and links. *)
Definition select (account : bool) (S storage excl : Z) (sized sizef : path → option Z)
    (ldb : gmap path ldata) (rdb : gmap path rdata)
    (iter : list (path * ldata) → list (path * ldata)) : option (Z * gset path * gset path) :=
  '(rem, dirs) ← prioritize_dirs account S storage sized ldb rdb iter (storage - excl);
  '(rem', files) ← prioritize_files account S sizef (iter (map_to_list (sl_get ldb None (Some false) None))) dirs rem;
  Some (rem', dirs, files).
