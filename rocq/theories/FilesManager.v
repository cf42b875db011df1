(** /repo/zielen/filelogic.py, class [FilesManager]. *)
From Coq Require Import QArith Qcanon.
From Verif Require Export World.
From stdpp Require Import options.

(** filelogic.py 590-613, [compute_added]: given the scans, the database, the
    excluded paths and the file system (to read links). *)
Definition added_local (m : fs) (L : path) (ls : nmap) (ldb : lmap) (ex : pset) : pset :=
  filter (λ p, ldb !! p = None ∧ unsafe_link m (L ++ p) L = false) (dom ls) ∖ ex.
Definition added_remote (rs : nmap) (ldb : lmap) : pset := filter (λ p, ldb !! p = None) (dom rs).
Definition compute_added (C : conf) : M world (pset * pset) :=
  ls ←! local_scan C true;
  ldb ←! get v_ldb;
  m ←! get w_fs;
  ex ←! excluded C;
  rs ←! remote_scan C true;
  ret (added_local m (c_L C) ls ldb ex, added_remote rs ldb).

(** filelogic.py 615-653, [compute_modified]. *)
Definition modified_local (m : fs) (L : path) (ls : nmap) (ldb : lmap) (last : Z) : pset :=
  filter (λ p, is_Some (ldb !! p) ∧ unsafe_link m (L ++ p) L = false)
    (dom (filter (λ kv, is_Dir kv.2 = false ∧ (last < mtime kv.2)%Z) ls)).
Definition modified_remote (rs : nmap) (ldb : lmap) (rdb : rmap) (last : Z) : pset :=
  filter (λ p, is_Some (ldb !! p)) (dom (filter (λ kv, is_Dir kv.2 = false ∧ (last < mtime kv.2)%Z) rs))
  ∪ dom (sr_get rdb None (Some false) (Some last)).
Definition last_sync : M world Z :=
  eval (λ w, match w_last w with Some t => Ok t | None => Err ValueErr end).
Definition compute_modified (C : conf) : M world (pset * pset) :=
  last ←! last_sync;
  ls ←! local_scan C true;
  rs ←! remote_scan C true;
  m ←! get w_fs;
  ldb ←! get v_ldb;
  rdb ←! get v_rdb;
  ret (modified_local m (c_L C) ls ldb last, modified_remote rs ldb rdb last).

(** filelogic.py 675-684: paths below another path of the set are dropped.
    [sub_paths.remove(path)] raises KeyError for a path that the database does
    not have. *)
Definition topmost {D} (db : gmap path D) (X : pset) : res pset :=
  if decide (X ⊆ dom db) then
    Ok (X ∖ ⋃ ((λ q, dom (s_query db (Some q) (λ _, true)) ∖ {[q]}) <$> elements X))
  else Err KeyErr.
(** filelogic.py 655-693, [compute_deleted]. *)
Definition deleted (ls rs : nmap) (ldb : lmap) (rdb : rmap) (trash : bool) : res (pset * pset * pset) :=
  match topmost ldb (dom ldb ∖ dom rs) with
  | Err e => Err e
  | Ok del_l =>
      match topmost rdb (dom ldb ∖ dom ls) with
      | Err e => Err e
      | Ok del_r =>
          let tr := if trash then del_r ∩ dom (sl_get ldb None None (Some false)) else ∅ in
          Ok (del_l, del_r ∖ tr, tr)
      end
  end.
Definition compute_deleted (C : conf) : M world (pset * pset * pset) :=
  ls ←! local_scan C true;
  rs ←! remote_scan C true;
  eval (λ w, deleted ls rs (v_ldb w) (v_rdb w) (c_trash C)).

(** filelogic.py 553-588, [compute_stale]. *)
Definition retained (ldb : lmap) (keep : pset) : pset :=
  ⋃ ((λ q, dom (sl_get ldb (Some q) None None)) <$> elements keep).
Definition stale (ls : nmap) (ldb : lmap) (ex keep : pset) : pset :=
  filter (λ p, dom (sl_get ldb (Some p) None None) ∩ retained ldb keep = ∅)
    (((dom ls ∖ ex) ∩ dom ldb) ∖ retained ldb keep).
Definition compute_stale (C : conf) (keep : pset) : M world pset :=
  ex ←! excluded C;
  ls ←! local_scan C true;
  ldb ←! get v_ldb;
  ret (stale ls ldb ex keep).

(** filelogic.py 754-772, [_rm_files].  The order of the removals is that of
    [c_iter]. *)
Definition rm_one (parent_dir p : path) : M fs unit :=
  catch (FS.remove (parent_dir ++ p)) (λ e,
    match e with
    | IsADir => Some (rmtree (parent_dir ++ p))
    | FileNotFound => Some (ret tt)
    | _ => None
    end).
Definition rm_files (C : conf) (paths : pset) (parent_dir : path) : M world unit :=
  for_ (c_iter C (elements paths)) (λ p, fsm (rm_one parent_dir p)) ;!
  ldb_do (λ d, sl_rm d (c_iter C (elements paths))) ;!
  rdb_do (λ d, sr_rm d (c_iter C (elements paths))).
(** filelogic.py 774-785, 787-793 *)
Definition rm_local_files (C : conf) (paths : pset) : M world unit :=
  ex ←! excluded C;
  rm_files C (paths ∖ ex) (c_L C).
Definition rm_remote_files (C : conf) (paths : pset) : M world unit := rm_files C paths (c_R C).

(** userdata.py 212-236, [check_excluded]: the paths that every client's
    patterns match; the pattern files are read from the remote directory. *)
Definition read_file (m : fs) (p : path) : res (list N) :=
  match stat true m p with
  | Ok (File c _) => Ok c
  | Ok _ => Err IsADir
  | Err e => Err e
  end.
Fixpoint read_all (m : fs) (l : list path) : res (list (list N)) :=
  match l with
  | [] => Ok []
  | p :: l => match read_file m p with
              | Ok c => match read_all m l with Ok r => Ok (c :: r) | Err e => Err e end
              | Err e => Err e
              end
  end.
Definition check_excluded (C : conf) (m : fs) (paths : pset) : res pset :=
  match scandir m (exclude_dir C) with
  | Err e => Err e
  | Ok es =>
      if decide (paths = ∅) then Ok ∅ else
      match read_all m (map (λ xn, exclude_dir C ++ [xn.1]) es) with
      | Err e => Err e
      | Ok cs => Ok (filter (λ p, Forall (λ c, p ∈ c_glob C c m (c_L C)) cs) paths)
      end
  end.
(** filelogic.py 795-807, [rm_excluded_files] *)
Definition rm_excluded_files (C : conf) (paths : pset) : M world unit :=
  rm ←! eval (λ w, check_excluded C (w_fs w) paths);
  rdb ←! get v_rdb;
  rm_remote_files C (rm ∩ dom rdb).

(** filelogic.py 837-847: a name that is not in the trash.  [n] bounds the
    number of tries. *)
Fixpoint free_name (n : nat) (i : N) (name ext : list N) (used : list (list N)) : option (list N) :=
  match n with
  | O => None
  | S n' =>
      let x := name ++ lit "(" ++ show_N i ++ lit ")" ++ ext in
      if bool_decide (x ∈ used) then free_name n' (i + 1)%N name ext used else Some x
  end.
Definition trash_name (used : list (list N)) (base : list N) : option (list N) :=
  if bool_decide (base ∈ used) then
    let '(name, ext) := splitext base in free_name (S (length used)) 1%N name ext used
  else Some base.
(** filelogic.py 849-855: one move. *)
Definition trash_one (C : conf) (p : path) (x : list N) : M fs unit :=
  catch (rename (c_R C ++ p) (trash_dir C ++ [x]) ;! update_mtime (c_now C) (trash_dir C ++ [x]))
        (λ e, match e with FileNotFound => Some (ret tt) | _ => None end).
(** filelogic.py 809-858, [trash_files] *)
Definition trash_files (C : conf) (paths : pset) : M world unit :=
  remote_guard C (fsm (catch (mkdir (c_now C) (trash_dir C)) (λ e, match e with FileExists => Some (ret tt) | _ => None end))) ;!
  es ←! eval (λ w, scandir (w_fs w) (trash_dir C));
  let used := map fst es in
  let old := c_iter C (elements paths) in
  match mapM (λ p, trash_name used (default [] (last p))) old with
  | None => throw EFuel
  | Some new =>
      for_ (zip old new) (λ pn, fsm (trash_one C pn.1 pn.2)) ;!
      ldb_do (λ d, sl_rm d old) ;! rdb_do (λ d, sr_rm d old)
  end.
(** filelogic.py 860-868, [cleanup_trash].  [entry.stat()] follows links.
    Simplification: the entries are listed before the first is deleted. *)
Definition cleanup_one (C : conf) (cutoff : Z) (x : list N) : M fs unit :=
  n ←! eval (λ m, stat true m (trash_dir C ++ [x]));
  if (mtime n <=? cutoff)%Z then
    catch (rmtree (trash_dir C ++ [x])) (λ e, match e with NotADir => Some (FS.remove (trash_dir C ++ [x])) | _ => None end)
  else ret tt.
Definition cleanup_trash (C : conf) (period : Z) : M world unit :=
  es ←! eval (λ w, scandir (w_fs w) (trash_dir C));
  for_ (map fst es) (λ x, fsm (cleanup_one C (c_now C - period) x)).

(** filelogic.py 870-879, [get_excluded_size]: a path that the scan does not
    have is looked up in the file system. *)
Definition lookup_blocks (C : conf) (m : fs) (ls : nmap) (p : path) : res Z :=
  match ls !! p with
  | Some n => Ok (c_blocks C p n)
  | None => match stat false m (c_L C ++ p) with Ok n => Ok (c_blocks C p n) | Err e => Err e end
  end.
Fixpoint sum_res (l : list (res Z)) : res Z :=
  match l with
  | [] => Ok 0%Z
  | Err e :: _ => Err e
  | Ok z :: l => match sum_res l with Ok s => Ok (z + s)%Z | Err e => Err e end
  end.
Definition excluded_size (C : conf) : M world Z :=
  ex ←! excluded C;
  ls ←! local_scan C true;
  eval (λ w, sum_res (map (lookup_blocks C (w_fs w) ls) (elements ex))).

(** filelogic.py 695-726, [_rename_files], for 728-752.  The generator [old_paths] is used
    up by [profile.rm_paths], which reads it once to find the rows; neither
    the parents nor the remote database are updated. *)
Definition conflict_name (C : conf) (p : path) : path :=
  path_comps (timestamp_path (c_dt C) (rel_path p) (lit "conflict")).
Definition rename_files (C : conf) (pairs : list (path * path)) (parent_dir : path) : M world unit :=
  for_ pairs (λ on, fsm (rename (parent_dir ++ on.1) (parent_dir ++ on.2))) ;!
  ldb ←! get v_ldb;
  let is_dir := λ on : path * path, match ldb !! on.1 with Some d => ld_dir d | None => false end in
  let files := map snd (List.filter (λ on, negb (is_dir on)) pairs) in
  let dirs := map snd (List.filter is_dir pairs) in
  ldb_do (λ d, s_rm d (map fst pairs)) ;!
  ldb_do (λ d, sl_add d files dirs 0%Qc true) ;!
  rdb_do (λ d, sr_add d files dirs (c_now C)).

(** filelogic.py 527-540: the loop over the conflicts; which paths are to be
    renamed on either side.  A path that a scan does not have is a KeyError. *)
Fixpoint conflicts (ldb : lmap) (ls rs : nmap) (l : list path) : res (pset * pset) :=
  match l with
  | [] => Ok (∅, ∅)
  | p :: l =>
      match conflicts ldb ls rs l with
      | Err e => Err e
      | Ok (rl, rr) =>
          match ldb !! p with
          | Some (LData true _ _) => Ok (rl, rr)
          | _ =>
              match ls !! p, rs !! p with
              | Some nl, Some nr =>
                  if (mtime nl <? mtime nr)%Z then Ok ({[p]} ∪ rl, rr)
                  else if (mtime nr <? mtime nl)%Z then Ok (rl, {[p]} ∪ rr)
                  else Ok (rl, rr)
              | _, _ => Err KeyErr
              end
          end
      end
  end.
(** [PathsDiff.res_paths] after the renamings *)
Definition renamed (C : conf) (r paths : pset) : pset :=
  set_map (λ p : path, if bool_decide (p ∈ r) then conflict_name C p else p) paths.
Definition with_new (C : conf) (l : list path) : list (path * path) := map (λ p, (p, conflict_name C p)) l.
(** filelogic.py 501-551, [handle_conflicts] *)
Definition handle_conflicts (C : conf) (lp rp : pset) : M world (pset * pset) :=
  ls ←! local_scan C true;
  rs ←! remote_scan C true;
  rr ←! eval (λ w, conflicts (v_ldb w) ls rs (c_iter C (elements (lp ∩ rp))));
  (if decide (rr.1 = ∅) then ret tt else rename_files C (with_new C (c_iter C (elements rr.1))) (c_L C)) ;!
  (if decide (rr.2 = ∅) then ret tt else remote_guard C (rename_files C (with_new C (c_iter C (elements rr.2))) (c_R C))) ;!
  ret (renamed C rr.1 lp, renamed C rr.2 rp).

(** filelogic.py 415-436, [update_remote] *)
Definition update_remote (C : conf) (paths : pset) : M world unit :=
  remote_guard C (fsm (transfer_tree (c_now C) (c_tty C) (c_L C) (c_R C) (Some (c_iter C (elements paths))) ∅ false)) ;!
  rdb_do (λ d, sr_update d (c_iter C (elements paths)) None (Some (c_now C))).

(** filelogic.py 378-394: one stale path. *)
Definition drop_one (C : conf) (p : path) : M fs unit :=
  l ←! get (λ m, islink m (c_L C ++ p));
  if l : bool then ret tt
  else catch (FS.remove (c_L C ++ p)) (λ e,
    match e with
    | IsADir => Some (catch (rmdir (c_L C ++ p)) (λ e, if is_oserror e then Some (ret tt) else None))
    | _ => None
    end).
(** filelogic.py 360-413, [update_local] *)
Definition update_local (C : conf) (paths : pset) : M world unit :=
  st ←! compute_stale C paths;
  for_ (isort depth_ge (c_iter C (elements st))) (λ p, fsm (drop_one C p)) ;!
  rdb ←! get v_rdb;
  new ←! remote_guard C (
    new ←! fsm (symlink_tree (c_now C) (c_iter C) (c_R C) (c_L C)
                  (dom (sr_get rdb None (Some false) None)) (dom (sr_get rdb None (Some true) None)) false);
    fsm (transfer_tree (c_now C) (c_tty C) (c_R C) (c_L C) (Some (c_iter C (elements paths))) ∅ false) ;!
    ret new);
  for_ (c_iter C (elements paths)) (λ p,
    ldb_do (λ d, sl_update d (c_iter C (elements (dom (sl_get d (Some p) None None)))) None None (Some true))) ;!
  ldb_do (λ d, sl_update d (c_iter C (elements new)) None None (Some false)).

(** filelogic.py 184-358 with the scans they take (203-211, 272-279). *)
Definition blocks_of (C : conf) (s : nmap) (p : path) : option Z := c_blocks C p <$> s !! p.
Definition prioritize (C : conf) (limit : Z) : M world (pset * pset) :=
  rs ←! remote_scan C false;
  rd ←! eval (λ w, match prioritize_dirs (c_account C) (c_block C) (c_limit C) (blocks_of C rs) (v_ldb w) (v_rdb w) (c_rows C) limit with
                   | Some x => Ok x
                   | None => Err KeyErr
                   end);
  rs ←! remote_scan C false;
  rf ←! eval (λ w, match prioritize_files (c_account C) (c_block C) (blocks_of C (no_dirs rs))
                           (c_rows C (map_to_list (sl_get (v_ldb w) None (Some false) None))) rd.2 rd.1 with
                   | Some x => Ok x
                   | None => Err KeyErr
                   end);
  ret (rd.2, rf.2).
