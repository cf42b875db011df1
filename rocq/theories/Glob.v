(** /repo/zielen/profile.py 300-404, [ProfileExcludeFile]: which paths the
    exclude patterns match.  The standard library's [glob] and [fnmatch] are
    modelled after CPython 3.11; [glob.glob] is called with [recursive=True].

    A path name is the list of its components here; "." is kept (it makes a
    difference at the end of a path), empty components are dropped except for
    the one after a final slash. *)
From Verif Require Export Fstools.
From stdpp Require Import options.

(** [fnmatch.translate]: the pieces of the regular expression.  A set is the
    list of the chunks between the hyphens that make ranges. *)
Inductive tok := TStar | TAny | TChar (c : char) | TSet (neg : bool) (chunks : list str).

Definition c_star : char := 42%N.
Definition c_quest : char := 63%N.
Definition c_open : char := 91%N.
Definition c_close : char := 93%N.
Definition c_bang : char := 33%N.
Definition is_open (c : char) : bool := N.eqb c c_open.

(** [glob.has_magic] *)
Definition magic_char (c : char) : bool := N.eqb c c_star || N.eqb c c_quest || N.eqb c c_open.
Definition has_magic (s : str) : bool := existsb magic_char s.

(** fnmatch.py 93-104: the text inside brackets (after "!") and what follows
    them; a closing bracket in the first place belongs to the text. *)
Fixpoint find_close (s : str) : option (str * str) :=
  match s with
  | [] => None
  | c :: r =>
      if N.eqb c c_close then Some ([], r)
      else match find_close r with Some (a, b) => Some (c :: a, b) | None => None end
  end.
Definition bracket (s : str) : option (bool * str * str) :=
  let '(neg, s1) := match s with c :: r => if N.eqb c c_bang then (true, r) else (false, s) | [] => (false, s) end in
  let '(first, s2) := match s1 with c :: r => if N.eqb c c_close then ([c], r) else ([], s1) | [] => ([], s1) end in
  match find_close s2 with
  | Some (a, r) => Some (neg, first ++ a, r)
  | None => None
  end.
(** fnmatch.py 105-121: cut at the hyphens that make ranges; the search for the
    next one starts [wait] characters later.  A hyphen at the end is an
    ordinary character. *)
Fixpoint cut_ranges (cur : str) (wait : nat) (s : str) : list str :=
  match s with
  | [] => [rev cur]
  | c :: r =>
      match wait with
      | O => if N.eqb c c_dash then
               match r with [] => [rev (c :: cur)] | _ => rev cur :: cut_ranges [] 2 r end
             else cut_ranges (c :: cur) O r
      | S n => cut_ranges (c :: cur) n r
      end
  end.
(** fnmatch.py 122-126: ranges that are empty disappear with their ends. *)
Fixpoint drop_empty (l : list str) : list str :=
  match l with
  | [] => []
  | a :: l' =>
      match drop_empty l' with
      | b :: l2 =>
          match last a, b with
          | Some x, y :: b' => if N.ltb y x then (removelast a ++ b') :: l2 else a :: b :: l2
          | _, _ => a :: b :: l2
          end
      | [] => [a]
      end
  end.
(** fnmatch.py 74-147; [n] bounds the number of pieces. *)
Fixpoint translate_aux (n : nat) (s : str) : list tok :=
  match n, s with
  | S n', c :: r =>
      if N.eqb c c_star then TStar :: translate_aux n' r
      else if N.eqb c c_quest then TAny :: translate_aux n' r
      else if is_open c then
        match bracket r with
        | Some (neg, stuff, r') => TSet neg (drop_empty (cut_ranges [] 1 stuff)) :: translate_aux n' r'
        | None => TChar c :: translate_aux n' r
        end
      else TChar c :: translate_aux n' r
  | _, _ => []
  end.
Definition translate (s : str) : list tok := translate_aux (length s) s.

(** fnmatch.py 127-185: the meaning of the regular expression.  A set without characters matches
    nothing, its complement everything. *)
Fixpoint in_set (c : char) (chunks : list str) : bool :=
  match chunks with
  | [] => false
  | a :: l =>
      existsb (N.eqb c) a
      || match last a, l with Some x, (y :: _) :: _ => (x <=? c)%N && (c <=? y)%N | _, _ => false end
      || in_set c l
  end.
Definition tok_ok (t : tok) (c : char) : bool :=
  match t with
  | TStar => false
  | TAny => true
  | TChar d => N.eqb c d
  | TSet neg chunks => xorb neg (in_set c chunks)
  end.
Fixpoint tmatch (ts : list tok) : str → bool :=
  match ts with
  | [] => λ x, match x with [] => true | _ => false end
  | TStar :: r => fix go x := tmatch r x || match x with [] => false | _ :: y => go y end
  | t :: r => λ x, match x with [] => false | c :: y => tok_ok t c && tmatch r y end
  end.
(** [fnmatch.filter] on one name *)
Definition fnmatch (pat name : str) : bool := tmatch (translate pat) name.

(** glob.py 230-231, [_ishidden] *)
Definition ishidden (s : str) : bool := startswith [c_dot] s.
Definition double_star : str := [c_star; c_star].

Section glob.
  Context (m : fs).

  (** "." leads nowhere, but only from a directory. *)
  Definition undot (p : path) : path := List.filter (λ c, negb (bool_decide (c = dot))) p.
  Definition g_isdir (p : path) : bool := isdir m (undot p).
  Definition g_lexists (p : path) : bool :=
    if bool_decide (last p = Some dot) then g_isdir p
    else match stat false m (undot p) with Ok _ => true | Err _ => false end.

  (** glob.py 142-178, [_iterdir] and [_listdir]: no names if there is an error. *)
  Definition listdir (d : path) (dironly : bool) : list str :=
    match scandir m (undot d) with
    | Ok es => List.filter (λ x, negb dironly || g_isdir (d ++ [x])) (map fst es)
    | Err _ => []
    end.
  (** glob.py 181-189, [_rlistdir]; it follows links to directories.  [n]
      bounds the depth. *)
  Fixpoint rlistdir (n : nat) (d : path) (dironly : bool) : list path :=
    match n with
    | O => []
    | S n' =>
        flat_map (λ x, [x] :: map (cons x) (rlistdir n' (d ++ [x]) dironly))
          (List.filter (λ x, negb (ishidden x)) (listdir d dironly))
    end.
  (** A path name with more names than this has a link in it that the kernel
      does not follow: at most 40 links are followed for one path name. *)
  Definition glob_depth : nat := 41 * S (size m).

  (** glob.py 105-122 and 133-138, the names below a directory. *)
  Definition glob0 (d : path) (b : str) : list path :=
    match b with
    | [] => if g_isdir d then [[]] else []
    | _ => if g_lexists (d ++ [b]) then [[b]] else []
    end.
  Definition glob1 (d : path) (b : str) (dironly : bool) : list path :=
    map (λ x, [x]) (List.filter (λ x, (ishidden b || negb (ishidden x)) && fnmatch b x) (listdir d dironly)).
  Definition glob2 (d : path) (dironly : bool) : list path :=
    (if g_isdir d then [[]] else []) ++ rlistdir glob_depth d dironly.

  (** glob.py 60-99, [_iglob], on the components in reverse order. *)
  Fixpoint iglob (rc : list str) (dironly : bool) : list path :=
    match rc with
    | [] => [[]]
    | b :: rd =>
        if negb (existsb has_magic rc) then
          match b with
          | [] => if g_isdir (rev rd) then [rev rd] else []
          | _ => if g_lexists (rev rc) then [rev rc] else []
          end
        else
          flat_map (λ d, map (app d)
              (if has_magic b then if bool_decide (b = double_star) then glob2 d dironly else glob1 d b dironly
               else glob0 d b))
            (if existsb has_magic rd then iglob rd true else [rev rd])
    end.
End glob.

(** profile.py 357-363: the components of the pattern in a line, for
    [glob.glob]. *)
Definition final_slash (s : str) : bool := match last (split_on c_slash s) with Some [] => true | _ => false end.
Definition pat_comps (line : str) : list str :=
  let '(pre, rest) := if startswith [c_slash] line then ([], lstrip_by is_slash line) else ([double_star], line) in
  pre ++ List.filter (λ c, negb (bool_decide (c = []))) (split_on c_slash rest) ++ (if final_slash rest then [[]] else []).

(** profile.py 300, 332-340: the lines that are not comments.
    Simplification: the file is a text already, lines end with "\n". *)
Definition comment_text (line : str) : bool := startswith [c_hash] (lstrip_by is_space line).
Definition pattern_lines (text : str) : list str := List.filter (λ l, negb (comment_text l)) (split_on c_nl text).

(** [os.path.relpath(path, start)]; the empty list stands for ".". *)
Definition relpath (start p : path) : path :=
  let q := walk [] p in
  let n := length (common_prefix start q) in
  replicate (length start - n) dotdot ++ drop n q.

(** profile.py 365-374: the matches of one pattern with everything below them.
    Only NotADirectoryError is caught. *)
Fixpoint add_matches (m : fs) (start : path) (ms : list path) (acc : gset path) : res (gset path) :=
  match ms with
  | [] => Ok acc
  | p :: ms' =>
      let acc1 := {[ relpath start p ]} ∪ acc in
      match scan_tree m (undot p) with
      | Ok l => add_matches m start ms' (list_to_set (map (relpath start) l) ∪ acc1)
      | Err NotADir => add_matches m start ms' acc1
      | Err x => Err x
      end
  end.
(** profile.py 351-374, [_glob]: the value of [_all_matches[start_path]]. *)
Fixpoint glob_lines (m : fs) (start : path) (lines : list str) (acc : gset path) : res (gset path) :=
  match lines with
  | [] => Ok acc
  | l :: ls =>
      match strip l with
      | [] => glob_lines m start ls acc
      | line =>
          match add_matches m start (iglob m (rev (start ++ pat_comps line)) false) acc with
          | Ok acc' => glob_lines m start ls acc'
          | Err x => Err x
          end
      end
  end.
(** profile.py 390-404, [all_matches] *)
Definition all_matches (m : fs) (start : path) (text : str) : res (gset path) := glob_lines m start (pattern_lines text) ∅.
