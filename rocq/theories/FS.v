(** The file system: the tree of absolute paths, and the system calls and
    [shutil] functions (CPython 3.5/3.6, Linux) that /repo uses.

    Paths are lists of components from the root of the file system.  Directory
    modification times change only through [utime] and [update_mtime] (the
    program reads them only for entries of the trash).  Permissions, hard
    links, special files and full disks are not modelled. *)
From Verif Require Export Path Mon.
From stdpp Require Import options.

Inductive node :=
  | File (content : list N) (mtime : Z)
  | Link (target : list N) (mtime : Z)
  | Dir (mtime : Z).
Global Instance node_eq_dec : EqDecision node.
Proof. solve_decision. Defined.
Notation fs := (@gmap (list (list N)) (@list_eq_dec (list N) (@list_eq_dec N N_eq_dec))
  (@list_countable (list N) (@list_eq_dec N N_eq_dec) (@list_countable N N_eq_dec N_countable)) node) (only parsing).

(** The root directory always exists. *)
Definition node_at (m : fs) (p : path) : option node :=
  match p with [] => Some (Dir 0) | _ => m !! p end.

Definition is_Dir (n : node) : bool := match n with Dir _ => true | _ => false end.
Definition is_Link (n : node) : bool := match n with Link _ _ => true | _ => false end.
Definition is_File (n : node) : bool := match n with File _ _ => true | _ => false end.
(** [st_mtime] *)
Definition mtime (n : node) : Z := match n with File _ t | Link _ t | Dir t => t end.

(** Path resolution (path_resolution(7)): the path with all links resolved, up
    to [n] of them; the last component is followed if [follow] is set and may
    be missing. *)
Fixpoint namei (n : nat) (follow : bool) (m : fs) : path → list (list N) → res path :=
  let rec := match n with O => λ _ _, Err EOther | S n' => namei n' follow m end in
  fix go cur todo :=
    match todo with
    | [] => Ok cur
    | c :: r =>
        if bool_decide (c = dotdot) then go (parent cur) r
        else
          let q := cur ++ [c] in
          match m !! q with
          | None => match r with [] => Ok q | _ => Err FileNotFound end
          | Some (Dir _) => go q r
          | Some (File _ _) => match r with [] => Ok q | _ => Err NotADir end
          | Some (Link t _) =>
              if bool_decide (r = []) && negb follow then Ok q
              else rec (if isabs t then [] else cur) (path_comps t ++ r)
          end
    end.
Definition resolve (follow : bool) (m : fs) (p : path) : res path := namei 40 follow m [] p.

(** stat(2) and lstat(2) *)
Definition stat (follow : bool) (m : fs) (p : path) : res node :=
  match resolve follow m p with
  | Ok q => match node_at m q with Some n => Ok n | None => Err FileNotFound end
  | Err e => Err e
  end.
(** [os.path.exists], [isdir], [islink]: OSError means False. *)
Definition exists_ (m : fs) (p : path) : bool := match stat true m p with Ok _ => true | Err _ => false end.
Definition isdir (m : fs) (p : path) : bool := match stat true m p with Ok n => is_Dir n | Err _ => false end.
Definition islink (m : fs) (p : path) : bool := match stat false m p with Ok n => is_Link n | Err _ => false end.
(** [os.readlink]; [None] is OSError. *)
Definition readlink (m : fs) (p : path) : option (list N) :=
  match stat false m p with Ok (Link t _) => Some t | _ => None end.

(** The names in a directory with their nodes; the order is arbitrary. *)
Definition entries (m : fs) (d : path) : list (list N * node) :=
  omap (λ kn, if decide (child_of kn.1 d) then match last kn.1 with Some x => Some (x, kn.2) | None => None end else None)
       (map_to_list m).
(** [os.scandir] *)
Definition scandir (m : fs) (p : path) : res (list (list N * node)) :=
  match resolve true m p with
  | Ok q => match node_at m q with
            | Some (Dir _) => Ok (entries m q)
            | Some _ => Err NotADir
            | None => Err FileNotFound
            end
  | Err e => Err e
  end.

Section calls.
  (** The current time; files written during the call get it. *)
  Context (now : Z).

  (** mkdir(2) *)
  Definition mkdir (p : path) : M fs unit :=
    q ←! eval (λ m, resolve false m p);
    n ←! get (λ m, node_at m q);
    match n with
    | Some _ => throw FileExists
    | None => put (<[q := Dir now]>)
    end.
  (** symlink(2) *)
  Definition symlink (t : list N) (p : path) : M fs unit :=
    q ←! eval (λ m, resolve false m p);
    n ←! get (λ m, node_at m q);
    match n with
    | Some _ => throw FileExists
    | None => put (<[q := Link t now]>)
    end.
  (** unlink(2), [os.remove] *)
  Definition remove (p : path) : M fs unit :=
    q ←! eval (λ m, resolve false m p);
    n ←! get (λ m, node_at m q);
    match n with
    | None => throw FileNotFound
    | Some (Dir _) => throw IsADir
    | Some _ => put (delete q)
    end.
  (** rmdir(2) *)
  Definition rmdir (p : path) : M fs unit :=
    q ←! eval (λ m, resolve false m p);
    n ←! get (λ m, node_at m q);
    match n with
    | None => throw FileNotFound
    | Some (Dir _) =>
        es ←! get (λ m, entries m q);
        if bool_decide (q = []) || negb (bool_decide (es = [])) then throw EOther else put (delete q)
    | Some _ => throw NotADir
    end.
  (** rename(2) *)
  Definition move (a b : path) (m : fs) : fs :=
    list_to_map (map (λ kn, (b ++ drop (length a) kn.1, kn.2))
                     (map_to_list (filter (λ kn, a `prefix_of` kn.1) m)))
    ∪ filter (λ kn, ¬ a `prefix_of` kn.1 ∧ kn.1 ≠ b) m.
  Definition rename (a b : path) : M fs unit :=
    qa ←! eval (λ m, resolve false m a);
    qb ←! eval (λ m, resolve false m b);
    na ←! get (λ m, node_at m qa);
    nb ←! get (λ m, node_at m qb);
    match na with
    | None => throw FileNotFound
    | Some na =>
        if bool_decide (qa = qb) then ret tt
        else if bool_decide (qa `prefix_of` qb) then throw EOther
        else match nb with
        | None => put (move qa qb)
        | Some nb =>
            match is_Dir na, is_Dir nb with
            | true, false => throw NotADir
            | false, true => if bool_decide (qb `prefix_of` qa) then throw EOther else throw IsADir
            | false, false => put (move qa qb)
            | true, true =>
                es ←! get (λ m, entries m qb);
                if bool_decide (es = []) then put (move qa qb) else throw EOther
            end
        end
    end.
  (** utimensat(2): set the modification time.  The root directory has no
      entry; its time is not modelled. *)
  Definition set_mtime (t : Z) (n : node) : node :=
    match n with File c _ => File c t | Link l _ => Link l t | Dir _ => Dir t end.
  Definition utime (follow : bool) (p : path) (t : Z) : M fs unit :=
    q ←! eval (λ m, resolve follow m p);
    n ←! get (λ m, node_at m q);
    match n with
    | None => throw FileNotFound
    | Some n => if bool_decide (q = []) then ret tt else put (<[q := set_mtime t n]>)
    end.

  (** [os.makedirs(p, exist_ok=True)] (os.py 195-230 of CPython 3.5). *)
  Fixpoint makedirs_rev (rp : path) : M fs unit :=
    let p := rev rp in
    match rp with
    | [] => ret tt
    | _ :: rhead =>
        (match rhead with
         | [] => ret tt
         | _ => e ←! get (λ m, exists_ m (rev rhead));
                if e : bool then ret tt
                else catch (makedirs_rev rhead) (λ x, match x with FileExists => Some (ret tt) | _ => None end)
         end) ;!
        catch (mkdir p) (λ x,
          if is_oserror x then
            Some (d ←! get (λ m, isdir m p); if d : bool then ret tt else throw x)
          else None)
    end.
  Definition makedirs (p : path) : M fs unit := makedirs_rev (rev p).

  (** [os.path.samefile]; OSError means False (shutil._samefile).  Without
      hard links two paths are the same file when they resolve to the same
      path. *)
  Definition samefile (m : fs) (a b : path) : bool :=
    match resolve true m a, resolve true m b with
    | Ok qa, Ok qb => bool_decide (qa = qb) && bool_decide (is_Some (node_at m qa))
    | _, _ => false
    end.

  (** Writing a file: it is truncated, then grows byte by byte. *)
  Definition write_file (q : path) (c : list N) : M fs unit :=
    put (<[q := File [] now]>) ;!
    for_ (seq 1 (length c)) (λ i, put (<[q := File (take i c) now]>)).
  (** [shutil.copyfile(src, dst, follow_symlinks=False)] *)
  Definition copyfile (src dst : path) : M fs unit :=
    same ←! get (λ m, samefile m src dst);
    if same : bool then throw SameFile else
    l ←! get (λ m, readlink m src);
    match l with
    | Some t => symlink t dst
    | None =>
        n ←! eval (λ m, stat true m src);
        match n with
        | File c _ =>
            q ←! eval (λ m, resolve true m dst);
            d ←! get (λ m, node_at m q);
            match d with
            | Some (Dir _) => throw IsADir
            | _ => write_file q c
            end
        | _ => throw IsADir
        end
    end.
  (** [shutil.copystat(src, dst, follow_symlinks=False)] *)
  Definition copystat (src dst : path) : M fs unit :=
    l ←! get (λ m, islink m src && islink m dst);
    n ←! eval (λ m, stat (negb l) m src);
    utime (negb l) dst (mtime n).
  (** [shutil.copy2(src, dst, follow_symlinks=False)] *)
  Definition copy2 (src dst : path) : M fs unit :=
    d ←! get (λ m, isdir m dst);
    let dst := if d : bool then match last src with Some x => dst ++ [x] | None => dst end else dst in
    copyfile src dst ;! copystat src dst.

  (** [shutil.rmtree(p)].  Simplification: entries go deepest first instead of
      directory by directory. *)
  Definition subtree (m : fs) (q : path) : list path :=
    isort depth_ge (elements (filter (λ k, q `prefix_of` k) (dom m))).
  Definition rmtree (p : path) : M fs unit :=
    q ←! eval (λ m, resolve false m p);
    n ←! get (λ m, node_at m q);
    match n with
    | None => throw FileNotFound
    | Some (File _ _) => throw NotADir
    | Some (Link _ _) => e ←! get (λ m, exists_ m p); if e : bool then throw EOther else throw FileNotFound
    | Some (Dir _) =>
        ks ←! get (λ m, subtree m q);
        for_ ks (λ k, put (delete k))
    end.
End calls.
