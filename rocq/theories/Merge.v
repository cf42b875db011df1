(** Specification of a sync without clashes: the three-way merge of the local
    and the remote directory over the paths of the last sync.  Independent of
    the model of sync.py; it uses the file tree, the rows of the databases and
    [safe_entry] (a link that may be copied: relative, and not leading out of
    the directory). *)
From Coq Require Import QArith Qcanon.
From Verif Require Export SyncProofs.
From stdpp Require Import options.

Global Instance safe_entry_dec m L p : Decision (safe_entry m L p).
Proof. unfold safe_entry. apply _. Defined.

(** A path of a sync directory: not the directory itself, and not in the
    program's own directory. *)
Definition ours (p : path) : Prop := p ≠ [] ∧ valid_comps p ∧ ¬ zielen_dir `prefix_of` p.

(** The entries of the local and of the remote directory; the program's own
    directory is not one. *)
Definition l_at (C : conf) (m : fs) (p : path) : option node :=
  if decide (p = []) then None else m !! (c_L C ++ p).
Definition r_at (C : conf) (m : fs) (p : path) : option node :=
  if decide (p = [] ∨ zielen_dir `prefix_of` p) then None else m !! (c_R C ++ p).

(** The same entry; the modification time of a directory does not matter. *)
Definition like (a b : option node) : Prop :=
  match a, b with
  | Some (Dir _), Some (Dir _) => True
  | _, _ => a = b
  end.

(** The rows of a database: each path is in a directory that has a row. *)
Definition rows (dir : path → option bool) : Prop :=
  ∀ p b, dir p = Some b → ours p ∧ (parent p = [] ∨ dir (parent p) = Some true).

(** A path that the patterns of all clients match.  The clients' patterns are in the
    files of the program's directory in the remote directory. *)
Definition agreed (C : conf) (m : fs) (p : path) : Prop :=
  ∀ x c t, m !! (exclude_dir C ++ [x]) = Some (File c t) → p ∈ c_glob C c m (c_L C).

Section merge.
  (** The file tree, the databases of the profile and of the remote directory,
      the time of the last sync, and the excluded paths. *)
  Context (C : conf) (m : fs) (ldb : lmap) (rdb : rmap) (last_sync : Z) (X : pset).
  Local Notation l_at := (l_at C m).
  Local Notation r_at := (r_at C m).
  (** Was there at the last sync. *)
  Definition known (p : path) : Prop := is_Some (ldb !! p).
  (** Entries of the local directory that are none of the program's business:
      excluded ones and links that cannot be copied. *)
  Definition stray (p : path) : Prop :=
    is_Some (l_at p) ∧ ¬ known p ∧ (p ∈ X ∨ ¬ safe_entry m (c_L C) p).
  Global Instance stray_dec p : Decision (stray p).
  Proof. unfold stray, known. apply _. Defined.

  (** The outcome: what has been deleted on one side is deleted; a file that was
      edited locally replaces the remote one; new entries of both sides are
      added. *)
  Definition merged (p : path) : option node :=
    match ldb !! p, l_at p, r_at p with
    | Some _, Some (File c t), Some n => if (last_sync <? t)%Z then Some (File c t) else Some n
    | Some _, Some _, Some n => Some n
    | Some _, _, _ => None
    | None, _, Some n => Some n
    | None, Some n, None => if decide (stray p) then None else Some n
    | None, None, None => None
    end.

  (** ** What happened since the last sync *)
  Definition new_l (p : path) : Prop := is_Some (l_at p) ∧ ¬ known p ∧ ¬ stray p.
  Definition gone_l (p : path) : Prop := known p ∧ l_at p = None.
  Definition gone_r (p : path) : Prop := known p ∧ r_at p = None.
  Definition edited_l (p : path) : Prop := known p ∧ ∃ c t, l_at p = Some (File c t) ∧ (last_sync < t)%Z.
  (** ... or another client has sent the file since *)
  Definition edited_r (p : path) : Prop :=
    (known p ∧ ∃ c t, r_at p = Some (File c t) ∧ (last_sync < t)%Z)
    ∨ (∃ d, rdb !! p = Some d ∧ rd_dir d = false ∧ (last_sync < rd_last d)%Z).
  (** A conflict: a file that was edited on both sides, or is new on both, and
      is not the same on both. *)
  Definition clash (p : path) : Prop :=
    ∃ c t c' t', l_at p = Some (File c t) ∧ r_at p = Some (File c' t') ∧ File c t ≠ File c' t' ∧ ((edited_l p ∧ edited_r p) ∨ ¬ known p).
  (** Goes to the trash: a deleted file or directory that was only in the remote
      directory. *)
  Definition trashed (p : path) : Prop :=
    c_trash C = true ∧ gone_l p ∧ ¬ gone_l (parent p) ∧ ∃ d, ldb !! p = Some d ∧ ld_local d = false.

  Local Notation ldir := (λ p, ld_dir <$> ldb !! p).
  Local Notation rdir := (λ p, rd_dir <$> rdb !! p).

  (** ** A state that is in order *)
  Record calm_x : Prop := {
    (** The directories are there, and the program's own is in order. *)
    cl_mounted : mounted C m;
    cl_apart : apart (c_L C) (c_R C);
    cl_util : util_ok C m;
    cl_trash : dir_at m (trash_dir C);
    cl_no_util : ∀ p, zielen_dir `prefix_of` p → l_at p = None;
    (** The databases are in order and agree with the directories. *)
    cl_rows_l : rows ldir;
    cl_rows_r : rows rdir;
    cl_kind_l : ∀ p b n, ldir p = Some b → l_at p = Some n → is_Dir n = b;
    cl_kind_r : ∀ p b n, ldir p = Some b ∨ rdir p = Some b → r_at p = Some n → is_Dir n = b;
    cl_kind : ∀ p b b', ldir p = Some b → rdir p = Some b' → b = b';
    cl_listed : ∀ p, known p → is_Some (r_at p) → is_Some (rdb !! p);
    cl_unlisted : ∀ p, is_Some (rdb !! p) → known p ∨ is_Some (r_at p);
    (** Links: none in the remote directory; in the local directory those of
        the program, for known files, and stray ones. *)
    cl_link_r : ∀ p t k, r_at p ≠ Some (Link t k);
    cl_link_l : ∀ p t k, l_at p = Some (Link t k) → (known p ∧ t = abs_path (c_R C ++ p)) ∨ stray p;
    (** Stray entries: a known path that is excluded is in both directories, and
        then the clients' patterns are files; a directory that holds a
        stray entry is in both directories or stray itself; a stray directory
        holds nothing else; no directory has a stray link of its own name. *)
    cl_excluded_x : ∀ p, p ∈ X → is_Some (l_at p) ∧ (known p → is_Some (r_at p));
    cl_patterns : ∀ p x n, p ∈ X → known p → m !! (exclude_dir C ++ [x]) = Some n → ∃ c t, n = File c t;
    cl_stray : ∀ p, stray p → r_at p = None;
    cl_stray_up : ∀ p q, stray p → q `prefix_of` p → q ≠ p → q ≠ [] → stray q ∨ (known q ∧ is_Some (r_at q));
    cl_stray_down : ∀ p q, stray q → q `prefix_of` p → is_Some (l_at p) → stray p;
    cl_echo : ∀ p x t k, p ≠ [] → last p = Some x → stray (p ++ [x]) → l_at (p ++ [x]) ≠ Some (Link t k);
    (** No path is a new file on one side and a new directory on the other; none
        is edited on one side and deleted on the other; nothing is new in a
        directory that is deleted on the other side. *)
    cl_new_kind : ∀ p n n', ¬ known p → l_at p = Some n → r_at p = Some n' → is_Dir n = is_Dir n';
    cl_gone : ∀ p, gone_l p ∨ gone_r p → ¬ edited_l p ∧ ¬ edited_r p;
    cl_gone_l : ∀ p q, gone_l p → p `prefix_of` q → is_Some (r_at q) → known q;
    cl_gone_r : ∀ p q, gone_r p → p `prefix_of` q → is_Some (l_at q) → known q;
    (** No path is deleted here that another client has deleted already. *)
    cl_deleted : ∀ p, gone_l p → is_Some (rdb !! p);
    (** A new local directory is not empty, or is in another one. *)
    cl_empty : ∀ p t, new_l p → l_at p = Some (Dir t) → r_at p = None →
      (∃ x, is_Some (l_at (p ++ [x]))) ∨ new_l (parent p);
    (** With "InflatePriority": a file of the last sync is still there. *)
    cl_inflate : c_inflate C = true → (∃ p, new_l p) →
      ∃ p, ldir p = Some false ∧ is_Some (l_at p) ∧ is_Some (r_at p);
    (** The names of what goes to the trash are different and free. *)
    cl_names : ∀ p q, trashed p → trashed q → last p = last q → p = q;
    cl_free : ∀ p x, trashed p → last p = Some x → m !! (trash_dir C ++ [x]) = None;
    cl_trash_links : ∀ x t k, m !! (trash_dir C ++ [x]) ≠ Some (Link t k)
  }.
  (** ... and has no conflicts *)
  Record clean_x : Prop := {
    cl_calm_x : calm_x;
    cl_no_clash : ∀ p, ¬ clash p
  }.
  (** ... and no known path is excluded *)
  Record calm : Prop := {
    cl_calm : calm_x;
    cl_unknown : ∀ p, p ∈ X → ¬ known p
  }.
  Record clean : Prop := {
    cl_clean : clean_x;
    cl_clean_unknown : ∀ p, p ∈ X → ¬ known p
  }.
  Lemma cl_excluded : calm → ∀ p, p ∈ X → is_Some (l_at p) ∧ ¬ known p.
  Proof. intros [H Hn] p Hp. split; [by apply (cl_excluded_x H)|by apply Hn]. Qed.
  Definition clean_calm (H : clean) : calm := {| cl_calm := cl_calm_x (cl_clean H); cl_unknown := cl_clean_unknown H |}.

  (** ** The outcome *)
  (** What the local directory shows at [p]: a directory of the merge, the file
      of the merge or a link to it in the remote directory, or the entry that
      is none of the program's business. *)
  Definition shows (p : path) (n : option node) : Prop :=
    match merged p with
    | Some (Dir _) => ∃ t, n = Some (Dir t)
    | Some f => n = Some f ∨ ∃ k, n = Some (Link (abs_path (c_R C ++ p)) k)
    | None => n = if decide (stray p) then l_at p else None
    end.
  Record outcome (m' : fs) : Prop := {
    oc_remote : ∀ p, like (Merge.r_at C m' p) (merged p);
    oc_local : ∀ p, shows p (Merge.l_at C m' p);
    oc_out : ∀ k, ¬ below k (c_L C) → ¬ below k (c_R C) → m' !! k = m !! k;
    oc_mounted : mounted C m';
    oc_util : util_ok C m';
    oc_trash : dir_at m' (trash_dir C);
    oc_trash_links : ∀ x t k, m' !! (trash_dir C ++ [x]) ≠ Some (Link t k);
    (** ... in the program's directory the client's patterns are new *)
    oc_rest : ∀ k, util_dir C `prefix_of` k → ¬ trash_dir C `prefix_of` k →
      m' !! k = if decide (k = exclude_file C) then Some (File (c_patterns C) (c_now C)) else m !! k
  }.

  (** ** Known paths that are excluded *)
  (** At or below a known path that is excluded. *)
  Definition set_aside (p : path) : Prop := ∃ q, q ∈ X ∧ known q ∧ q `prefix_of` p.
  (** ... and the patterns of all clients match it *)
  Definition let_go (m1 : fs) (p : path) : Prop := ∃ q, q ∈ X ∧ known q ∧ agreed C m1 q ∧ q `prefix_of` p.
  (** The outcome with known paths that are excluded: [m1] is the outcome of the
      merge, with those files copied to the local directory, and what all
      clients exclude leaves the remote directory. *)
  Record parted (m1 m' : fs) : Prop := {
    pa_merge : outcome m1;
    pa_copied : ∀ p c t, set_aside p → merged p = Some (File c t) → Merge.l_at C m1 p = Some (File c t);
    pa_gone : ∀ p, let_go m1 p → m' !! (c_R C ++ p) = None;
    pa_rest : ∀ k, ¬ trash_dir C `prefix_of` k → (∀ p, let_go m1 p → k ≠ c_R C ++ p) → m' !! k = m1 !! k;
    pa_mounted : mounted C m';
    pa_util : util_ok C m';
    pa_trash : dir_at m' (trash_dir C);
    pa_trash_links : ∀ x t k, m' !! (trash_dir C ++ [x]) ≠ Some (Link t k)
  }.

  (** ** The trash *)
  (** The time of an entry of the trash has come. *)
  Definition overdue (n : node) : Prop :=
    match c_cleanup C with Some d => d ≠ 0 ∧ mtime n <= c_now C - d | None => False end%Z.
  Global Instance overdue_dec n : Decision (overdue n).
  Proof. unfold overdue. destruct (c_cleanup C); apply _. Defined.
  (** What was moved there is all there, dated now; the other entries are as
      before, and those whose time has come are gone. *)
  Record trash_holds (m' : fs) : Prop := {
    th_new : (∀ d, c_cleanup C = Some d → (0 <= d)%Z) → ∀ p x, trashed p → last p = Some x →
      m' !! (trash_dir C ++ [x]) = set_mtime (c_now C) <$> r_at p
      ∧ ∀ s, s ≠ [] → m' !! (trash_dir C ++ x :: s) = r_at (p ++ s);
    th_old : ∀ x n s, m !! (trash_dir C ++ [x]) = Some n →
      m' !! (trash_dir C ++ x :: s) = if decide (overdue n) then None else m !! (trash_dir C ++ x :: s);
    th_none : ∀ x s, m !! (trash_dir C ++ [x]) = None → (∀ p, trashed p → last p ≠ Some x) → m' !! (trash_dir C ++ x :: s) = None
  }.
End merge.

Coercion cl_calm_x : clean_x >-> calm_x.
Coercion cl_clean : clean >-> clean_x.
Coercion clean_calm : clean >-> calm.
Coercion cl_calm : calm >-> calm_x.

(** What the user finds at [p]: a link to the remote file of the same path shows
    that file. *)
Definition view (C : conf) (m : fs) (p : path) : option node :=
  match l_at C m p with
  | Some (Link t k) => if decide (t = abs_path (c_R C ++ p)) then r_at C m p else Some (Link t k)
  | n => n
  end.
