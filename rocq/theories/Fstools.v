(** /repo/zielen/fstools.py *)
From Verif Require Export FS.
From stdpp Require Import options.

(** fstools.py 182-194, [scan_tree]: the paths of the entries, as the caller
    sees them.  [n] bounds the depth; [EFuel] is never reached with more than
    the number of directories ([scan_tree_spec]).  The order of entries is
    that of [entries]: every caller collects them in a set or a dict. *)
Fixpoint scan_tree_aux (n : nat) (m : fs) (p : path) : res (list path) :=
  match n with
  | O => Err EFuel
  | S n' =>
      match scandir m p with
      | Err e => Err e
      | Ok es =>
          foldr (λ xn acc,
            match acc with
            | Err e => Err e
            | Ok l =>
                if is_Dir xn.2 then
                  match scan_tree_aux n' m (p ++ [xn.1]) with
                  | Ok l' => Ok ((p ++ [xn.1]) :: l' ++ l)
                  | Err e => Err e
                  end
                else Ok ((p ++ [xn.1]) :: l)
            end) (Ok []) es
      end
  end.
Definition scan_tree (m : fs) (p : path) : res (list path) := scan_tree_aux (S (size m)) m p.

(** [os.path.relpath(entry.path, source)] for an entry below [source]. *)
Definition rel_to (source p : path) : path := drop (length source) p.

(** fstools.py 197-221, [is_unsafe_symlink], on the file system.  The caller's
    paths are absolute, so there is no ValueError. *)
Definition unsafe_link (m : fs) (link_path parent_path : path) : bool :=
  match is_unsafe_symlink (readlink m link_path) (abs_path link_path) (abs_path parent_path) with
  | Some b => b
  | None => false
  end.

(** fstools.py 224-236, [update_mtime].  Simplification: the temporary file
    that is created and removed to touch a directory is not shown. *)
Definition update_mtime (now : Z) (p : path) : M fs unit :=
  d ←! get (λ m, isdir m p);
  if d : bool then utime true p now
  else e ←! get (λ m, exists_ m p);
       if e : bool then utime false p now else ret tt.

(** fstools.py 61-71: the paths to transfer. *)
Fixpoint gather (m : fs) (source : path) (files : list path) : res (list path) :=
  match files with
  | [] => Ok []
  | p :: files' =>
      match scan_tree m (source ++ p) with
      | Ok l => match gather m source files' with Ok r => Ok (map (rel_to source) l ++ r) | Err e => Err e end
      | Err NotADir => match gather m source files' with Ok r => Ok (p :: r) | Err e => Err e end
      | Err e => Err e
      end
  end.
Definition to_transfer (m : fs) (source : path) (files : option (list path)) : res (list path) :=
  match files with
  | None => match scan_tree m source with Ok l => Ok (map (rel_to source) l) | Err e => Err e end
  | Some l => gather m source l
  end.

(** fstools.py 76-80: [rel_paths.sort(reverse=True)] compares the texts. *)
Definition text_ge (a b : path) : bool := str_leb (rel_path b) (rel_path a).
Definition text_order (X : gset path) : list path := isort text_ge (elements X).

(** fstools.py 91-113: one round of the loop. *)
Definition transfer_one (now : Z) (source dest : path) (rm_source : bool) (p : path) : M fs unit :=
  let src := source ++ p in
  let dst := dest ++ p in
  makedirs now (parent dst) ;!
  catch (copy2 now src dst) (λ e,
    match e with
    | SameFile | FileExists => Some (remove dst ;! copy2 now src dst)
    | IsADir => Some (makedirs now dst)
    | _ => None
    end) ;!
  if rm_source then catch (remove src) (λ e, if is_oserror e then Some (rmdir src) else None)
  else ret tt.

(** fstools.py 33-121, [transfer_tree].  [tty]: the progress bar is shown,
    which needs the size of every source file.  [files = None] means all. *)
Fixpoint stat_all (m : fs) (l : list path) : res unit :=
  match l with
  | [] => Ok tt
  | p :: l => match stat true m p with Ok _ => stat_all m l | Err e => Err e end
  end.
Definition transfer_tree (now : Z) (tty : bool) (source dest : path)
    (files : option (list path)) (exclude : gset path) (rm_source : bool) : M fs unit :=
  e ←! get (λ m, exists_ m source);
  if negb e then throw FileNotFound else
  l ←! eval (λ m, to_transfer m source files);
  let todo := text_order (list_to_set l ∖ exclude) in
  (if tty then eval (λ m, stat_all m (map (app source) todo)) else ret tt) ;!
  for_ todo (transfer_one now source dest rm_source).

(** fstools.py 124-179, [symlink_tree].  [iter] is the order in which the
    set of paths is listed; it is then sorted by depth.  The result is the
    set of created paths. *)
Definition link_one (now : Z) (src_dir dest_dir : path) (files dirs : gset path) (overwrite : bool)
    (p : path) : M fs bool :=
  let full := dest_dir ++ p in
  let t := abs_path (src_dir ++ p) in
  if bool_decide (p ∈ dirs) then
    catch (mkdir now full ;! ret true) (λ e, match e with FileExists => Some (ret false) | _ => None end)
  else if bool_decide (p ∈ files) then
    catch (symlink now t full ;! ret true) (λ e,
      match e with
      | FileExists => Some (if overwrite then remove full ;! symlink now t full ;! ret true else ret false)
      | _ => None
      end)
  else ret false.
Fixpoint link_all (now : Z) (src_dir dest_dir : path) (files dirs : gset path) (overwrite : bool)
    (l : list path) : M fs (gset path) :=
  match l with
  | [] => ret ∅
  | p :: l =>
      b ←! link_one now src_dir dest_dir files dirs overwrite p;
      s ←! link_all now src_dir dest_dir files dirs overwrite l;
      ret (if b : bool then {[p]} ∪ s else s)
  end.
Definition symlink_tree (now : Z) (iter : list path → list path) (src_dir dest_dir : path)
    (files dirs : gset path) (overwrite : bool) : M fs (gset path) :=
  makedirs now dest_dir ;!
  link_all now src_dir dest_dir files dirs overwrite (isort depth_le (iter (elements (dirs ∪ files)))).
