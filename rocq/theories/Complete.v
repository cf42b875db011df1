(** Completing a path at the prompt: /repo/zielen/utils.py 120-138,
    [set_path_autocomplete]. *)
From Verif Require Export Glob HomeDir.
From stdpp Require Import options.

Section complete.
  Context (m : fs) (home : str) (users : str → option str).

  (** glob.py 60-99, [_iglob], without [recursive=True]: "**" is like "*"
      (compare [iglob]); the components are in reverse order. *)
  Fixpoint iglob_flat (rc : list str) (dironly : bool) : list path :=
    match rc with
    | [] => [[]]
    | b :: rd =>
        if negb (existsb has_magic rc) then
          match b with
          | [] => if g_isdir m (rev rd) then [rev rd] else []
          | _ => if g_lexists m (rev rc) then [rev rc] else []
          end
        else
          flat_map (λ d, map (app d) (if has_magic b then glob1 m d b dironly else glob0 m d b))
            (if existsb has_magic rd then iglob_flat rd true else [rev rd])
    end.
  (** The components of an absolute path name.  Simplification: relative ones
      are left out, so are steps up with ".."; slashes that are repeated
      disappear, which the program keeps in what it offers. *)
  Definition text_comps (s : str) : list str :=
    slash_comps s ++ (if final_slash s then [[]] else []).
  (** [glob.glob(pattern)] *)
  Definition glob_text (pattern : str) : list str :=
    map abs_path (iglob_flat (rev (text_comps pattern)) false).

  (** utils.py 122-134: everything that [autocomplete(text, state)] returns for
      the states 0, 1, ... before [None]. *)
  Definition autocomplete (text : str) : list str :=
    let expanded := expanduser home users text in
    let possible :=
      if g_isdir m (slash_comps expanded)
      then glob_text (pjoin expanded [c_star])
      else glob_text (expanded ++ [c_star]) in
    if bool_decide (expanded = text) then possible else map (contract_user home users) possible.
End complete.
