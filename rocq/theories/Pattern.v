(** Specification of exclude patterns, after /repo/docs/zielen.1.rst 127-144:
    their structure, how they are written, and what they match.  Nothing here
    depends on the model of the program, only on the file tree. *)
From Verif Require Export FSProofs.
From stdpp Require Import options.

(** ** What patterns are made of *)
(** In brackets: a character or, as in shells, a range of characters. *)
Inductive elt := One (c : char) | Range (a b : char).
(** "*", "?", an ordinary character, and brackets.  [close] says that "]" is
    the first character in the brackets, [neg] (as in shells) that the set is
    complemented. *)
Inductive item := Star | Any | Char (c : char) | Brackets (neg close : bool) (elts : list elt).
Inductive comp := DStar | Name (l : list item).
(** [anchored]: with a slash at the start; [slash]: with a slash at the end. *)
Record pattern := Pat { anchored : bool; comps : list comp; slash : bool }.

(** ** How they are written *)
Definition show_elt (x : elt) : str := match x with One c => [c] | Range a b => a :: lit "-" ++ [b] end.
Definition show_set (close : bool) (l : list elt) : str := (if close then lit "]" else []) ++ concat (map show_elt l).
Definition show_item (x : item) : str :=
  match x with
  | Star => lit "*"
  | Any => lit "?"
  | Char c => [c]
  | Brackets neg close l => lit "[" ++ (if neg then lit "!" else []) ++ show_set close l ++ lit "]"
  end.
Definition show_name (l : list item) : str := concat (map show_item l).
Definition show_comp (c : comp) : str := match c with DStar => lit "**" | Name l => show_name l end.
Definition show_pat (p : pattern) : str :=
  (if anchored p then lit "/" else []) ++ join_on c_slash (map show_comp (comps p)) ++ (if slash p then lit "/" else []).

(** Characters that stand for themselves, outside of and in brackets. *)
Definition ordinary (c : char) : Prop := c ∉ lit "*?[/" ∧ c ≠ c_nl.
Definition in_brackets (c : char) : Prop := c ∉ lit "]-/" ∧ c ≠ c_nl.
Definition wf_elt (x : elt) : Prop :=
  match x with One c => in_brackets c | Range a b => in_brackets a ∧ in_brackets b ∧ (a ≤ b)%N end.
Definition wf_item (x : item) : Prop :=
  match x with
  | Star | Any => True
  | Char c => ordinary c
  | Brackets neg close l => Forall wf_elt l ∧ show_set close l ≠ [] ∧ (neg = false → head (show_set close l) ≠ head (lit "!"))
  end.
Definition wf_comp (c : comp) : Prop :=
  match c with
  | DStar => True
  | Name l => Forall wf_item l ∧ show_name l ∉ [[]; lit "."; lit ".."; lit "**"]
  end.
Definition wf_pat (p : pattern) : Prop :=
  comps p ≠ [] ∧ Forall wf_comp (comps p) ∧ strip (show_pat p) = show_pat p ∧ head (show_pat p) ≠ head (lit "#").

(** ** What they match *)
Definition elt_has (c : char) (x : elt) : Prop := match x with One d => c = d | Range a b => (a ≤ c ≤ b)%N end.
Definition member (c : char) (close : bool) (l : list elt) : Prop := (close = true ∧ [c] = lit "]") ∨ Exists (elt_has c) l.
Inductive fits_name : list item → str → Prop :=
  | fn_nil : fits_name [] []
  | fn_star (x : str) l n : fits_name l n → fits_name (Star :: l) (x ++ n)
  | fn_any (c : char) l n : fits_name l n → fits_name (Any :: l) (c :: n)
  | fn_char (c : char) l n : fits_name l n → fits_name (Char c :: l) (c :: n)
  | fn_set (neg close : bool) s c l n : (if neg then ¬ member c close s else member c close s) → fits_name l n →
      fits_name (Brackets neg close s :: l) (c :: n).
Definition hidden (x : str) : Prop := head x = head (lit ".").
(** A hidden name needs a pattern that starts with a dot. *)
Definition name_fits (l : list item) (x : str) : Prop :=
  fits_name l x ∧ (hidden x → match l with Char c :: _ => [c] = lit "." | _ => False end).

Section tree.
  (** The directory [S] in the file tree [m]. *)
  Context (m : fs) (S : path).
  (** [leads d l p]: the components [l] lead from the path [d] to [p]. *)
  Inductive leads : path → list comp → path → Prop :=
    | ld_nil d : leads d [] d
    | ld_name d l x cs p : name_fits l x → leads (d ++ [x]) cs p → leads d (Name l :: cs) p
    | ld_dstar d a cs p : isdir m (S ++ d) = true → Forall (λ x, ¬ hidden x) a → leads (d ++ a) cs p → leads d (DStar :: cs) p.
  (** The pattern matches the path [p] in [S]. *)
  Definition matches (pt : pattern) (p : path) : Prop :=
    leads [] (if anchored pt then comps pt else DStar :: comps pt) p ∧ (slash pt = true → isdir m (S ++ p) = true).
End tree.

(** ** Pattern files: blank lines, comments and patterns, with white space *)
Inductive pline := Blank (ws : str) | Comment (ws rest : str) | Pattern (ws : str) (p : pattern) (ws' : str).
Definition show_line (l : pline) : str :=
  match l with
  | Blank ws => ws
  | Comment ws rest => ws ++ lit "#" ++ rest
  | Pattern ws p ws' => ws ++ show_pat p ++ ws'
  end.
Definition white (s : str) : Prop := Forall (λ c, is_space c = true ∧ c ≠ c_nl) s.
Definition wf_line (l : pline) : Prop :=
  match l with
  | Blank ws => white ws
  | Comment ws rest => white ws ∧ c_nl ∉ rest
  | Pattern ws p ws' => white ws ∧ wf_pat p ∧ white ws'
  end.
Definition show_file (ls : list pline) : str := concat (map (λ l, show_line l ++ [c_nl]) ls).
