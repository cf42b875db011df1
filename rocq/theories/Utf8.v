(** CPython's [str.encode()] (UTF-8, strict) and [os.fsencode] (UTF-8 with the
    surrogateescape handler), which /repo/zielen/containerbase.py 212-215 and
    /repo/zielen/commandbase.py 124-130 use.  Bytes are numbers below 256. *)
From Verif Require Export PosixPath.
From stdpp Require Import options.

Definition is_surrogate (c : N) : bool := ((55296 <=? c) && (c <=? 57343))%N.
(** One code point; [None] is UnicodeEncodeError. *)
Definition utf8_char (c : N) : option (list N) :=
  (if c <? 128 then Some [c]
   else if c <? 2048 then Some [192 + c / 64; 128 + c mod 64]
   else if is_surrogate c then None
   else if c <? 65536 then Some [224 + c / 4096; 128 + c / 64 mod 64; 128 + c mod 64]
   else if c <? 1114112 then Some [240 + c / 262144; 128 + c / 4096 mod 64; 128 + c / 64 mod 64; 128 + c mod 64]
   else None)%N.
Fixpoint encode_with (f : N → option (list N)) (s : str) : option (list N) :=
  match s with
  | [] => Some []
  | c :: r => match f c, encode_with f r with
              | Some b, Some bs => Some (b ++ bs)
              | _, _ => None
              end
  end.
Definition utf8 : str → option (list N) := encode_with utf8_char.
(** The bytes 128 to 255 that are not valid UTF-8 are read as the code points
    from U+DC80 and written back by [fsencode]. *)
Definition fs_char (c : N) : option (list N) :=
  if ((56448 <=? c) && (c <=? 56575))%N then Some [(c - 56320)%N] else utf8_char c.
Definition fsencode : str → option (list N) := encode_with fs_char.

(** containerbase.py 207-215: the id of a path is computed from [hash_string],
    with a hash of bytes.  [None] is UnicodeEncodeError. *)
Definition hash_path (sha : list N → Z) (s : str) : option Z :=
  match utf8 s with Some b => Some (sha b) | None => None end.

(** No encoding of a code point is the start of the encoding of another. *)
Section dec.
  Local Ltac Zify.zify_post_hook ::= Z.to_euclidean_division_equations.
  Lemma utf8_char_prefix c c' b b' r r' :
    utf8_char c = Some b → utf8_char c' = Some b' → b ++ r = b' ++ r' → c = c' ∧ r = r'.
  Proof.
    unfold utf8_char. intros H H'.
    repeat match goal with H : context [if (?x <? ?y)%N then _ else _] |- _ => destruct (N.ltb_spec x y) end;
    repeat match goal with H : context [if is_surrogate ?x then _ else _] |- _ => destruct (is_surrogate x) end;
    try discriminate; injection H as <-; injection H' as <-; simpl; intros E; injection E; intros; subst;
    (split; [lia|done]) || (exfalso; lia).
  Qed.
End dec.
Lemma utf8_inj s s' b : utf8 s = Some b → utf8 s' = Some b → s = s'.
Proof.
  unfold utf8. revert s' b. induction s as [|c s IH]; intros [|c' s'] b; simpl; [done| | |].
  - intros [= <-]. destruct (utf8_char c') as [x|] eqn:E; [|done]. destruct (encode_with _ s'); [|done].
    intros [= E']. destruct x; [|done]. unfold utf8_char in E.
    repeat match goal with H : context [if ?x then _ else _] |- _ => destruct x end; discriminate.
  - intros H [= <-]. revert H. destruct (utf8_char c) as [x|] eqn:E; [|done]. destruct (encode_with _ s); [|done].
    intros [= E']. destruct x; [|done]. unfold utf8_char in E.
    repeat match goal with H : context [if ?x then _ else _] |- _ => destruct x end; discriminate.
  - destruct (utf8_char c) as [x|] eqn:E; [|done]. destruct (encode_with _ s) as [y|] eqn:Es; [|done]. intros [= <-].
    destruct (utf8_char c') as [x'|] eqn:E'; [|done]. destruct (encode_with _ s') as [y'|] eqn:Es'; [|done]. intros [= Eq].
    destruct (utf8_char_prefix _ _ _ _ _ _ E' E Eq) as [-> ->]. f_equal. by eapply IH.
Qed.
Lemma utf8_char_some c : (c < 1114112)%N → is_Some (utf8_char c) ↔ is_surrogate c = false.
Proof.
  intros Hc. unfold utf8_char. destruct (N.ltb_spec c 128).
  { split; [|done]. intros _. unfold is_surrogate. rewrite andb_false_iff. left. apply N.leb_gt. lia. }
  destruct (N.ltb_spec c 2048).
  { split; [|done]. intros _. unfold is_surrogate. rewrite andb_false_iff. left. apply N.leb_gt. lia. }
  destruct (is_surrogate c); [split; [by intros [? ?]|done]|]. destruct (N.ltb_spec c 65536); [done|].
  destruct (N.ltb_spec c 1114112); [done|lia].
Qed.
Lemma utf8_some s : Forall (λ c, (c < 1114112)%N) s → is_Some (utf8 s) ↔ Forall (λ c, is_surrogate c = false) s.
Proof.
  unfold utf8. induction 1 as [|c s Hc H IH]; simpl; [split; [constructor|by eexists]|].
  rewrite Forall_cons, <-IH, <-utf8_char_some by done.
  destruct (utf8_char c), (encode_with _ s); split; try (by intros [? ?]); try (by intros [[? ?] [? ?]]); eauto.
Qed.
