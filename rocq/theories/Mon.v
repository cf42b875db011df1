(** Programs with state, exceptions and a record of every intermediate state.

    A run from a state gives the states after each change in order (the places
    where a crash can leave the program), the final state, and the result.  A
    crash of a run from [s] leaves one of the states [s :: trace].  Not a model
    of code in /repo, but of how Python runs it. *)
From stdpp Require Export prelude.
From stdpp Require Import options.

(** Exceptions: those of the operating system that the program can meet, and
    those that the program and its libraries raise.
    [EOther]: an OSError without a class of its own (ELOOP, ENOTEMPTY, EINVAL).
    [EFuel] stands for nontermination of a loop of the model. *)
Inductive exn :=
  | FileNotFound | FileExists | NotADir | IsADir | EOther | SameFile
  | KeyErr | ValueErr | TypeErr | IntegrityErr | OperationalErr
  | RemoteErr | TransferErr | AvailableSpaceErr | InputErr | StatusErr | UserErr | FileParseErr
  | EFuel.
Global Instance exn_eq_dec : EqDecision exn.
Proof. solve_decision. Defined.

Inductive res (A : Type) := Ok (a : A) | Err (e : exn).
Global Arguments Ok {_} _.
Global Arguments Err {_} _.

(** Python's [OSError] and its subclasses (shutil.SameFileError is one). *)
Definition is_oserror (e : exn) : bool :=
  match e with FileNotFound | FileExists | NotADir | IsADir | EOther | SameFile => true | _ => false end.

Definition M (S A : Type) : Type := S → list S * S * res A.

Section monad.
  Context {S : Type}.
  Definition ret {A} (a : A) : M S A := λ s, ([], s, Ok a).
  Definition throw {A} (e : exn) : M S A := λ s, ([], s, Err e).
  Definition bind {A B} (m : M S A) (k : A → M S B) : M S B := λ s,
    let '(t, s1, r) := m s in
    match r with
    | Ok a => let '(t', s2, r') := k a s1 in (t ++ t', s2, r')
    | Err e => (t, s1, Err e)
    end.
  (** [try: m except ...: h]; [h e = None] when no clause matches. *)
  Definition catch {A} (m : M S A) (h : exn → option (M S A)) : M S A := λ s,
    let '(t, s1, r) := m s in
    match r with
    | Ok a => (t, s1, Ok a)
    | Err e =>
        match h e with
        | Some m' => let '(t', s2, r') := m' s1 in (t ++ t', s2, r')
        | None => (t, s1, Err e)
        end
    end.
  Definition get {A} (f : S → A) : M S A := λ s, ([], s, Ok (f s)).
  Definition eval {A} (f : S → res A) : M S A := λ s, ([], s, f s).
  (** A change that cannot be interrupted in the middle. *)
  Definition put (f : S → S) : M S unit := λ s, ([f s], f s, Ok tt).
  (** A change of volatile state: a crash cannot show it. *)
  Definition mut (f : S → S) : M S unit := λ s, ([], f s, Ok tt).
  Fixpoint for_ {A} (l : list A) (body : A → M S unit) : M S unit :=
    match l with
    | [] => ret tt
    | x :: l => bind (body x) (λ _, for_ l body)
    end.
End monad.
Notation "x ←! m ; k" := (bind m (λ x, k)) (at level 100, m at next level, k at level 200, right associativity).
Notation "' x ←! m ; k" := (bind m (λ x, k)) (at level 100, x strict pattern, m at next level, k at level 200, right associativity).
Notation "m ;! k" := (bind m (λ _, k)) (at level 100, k at level 200, right associativity).

(** A program on a part of a larger state. *)
Definition lift {S T A} (view : T → S) (upd : S → T → T) (m : M S A) : M T A := λ t,
  let '(tr, s', r) := m (view t) in (map (λ s, upd s t) tr, upd s' t, r).

(** What can be said about a run: [I] holds in every intermediate state, [Q]
    of the result and the final state. *)
Definition wp {S A} (m : M S A) (I : S → Prop) (Q : res A → S → Prop) (s : S) : Prop :=
  Forall I (m s).1.1 ∧ Q (m s).2 (m s).1.2.

Section wp.
  Context {S : Type} (I : S → Prop).
  Lemma wp_ret {A} (a : A) (Q : res A → S → Prop) s : Q (Ok a) s → wp (ret a) I Q s.
  Proof. intros H. split; [constructor|done]. Qed.
  Lemma wp_throw {A} e (Q : res A → S → Prop) s : Q (@Err A e) s → wp (throw e) I Q s.
  Proof. intros H. split; [constructor|done]. Qed.
  Lemma wp_get {A} (f : S → A) (Q : res A → S → Prop) s : Q (Ok (f s)) s → wp (get f) I Q s.
  Proof. intros H. split; [constructor|done]. Qed.
  Lemma wp_eval {A} (f : S → res A) (Q : res A → S → Prop) s : Q (f s) s → wp (eval f) I Q s.
  Proof. intros H. split; [constructor|done]. Qed.
  Lemma wp_put f (Q : res unit → S → Prop) s : I (f s) → Q (Ok tt) (f s) → wp (put f) I Q s.
  Proof. intros H H'. split; [by repeat constructor|done]. Qed.
  Lemma wp_mut f (Q : res unit → S → Prop) s : Q (Ok tt) (f s) → wp (mut f) I Q s.
  Proof. intros H'. split; [by repeat constructor|done]. Qed.
  Lemma wp_bind {A B} (m : M S A) (k : A → M S B) (Q : res B → S → Prop) s :
    wp m I (λ r s', match r with Ok a => wp (k a) I Q s' | Err e => Q (Err e) s' end) s →
    wp (bind m k) I Q s.
  Proof.
    unfold wp, bind. destruct (m s) as [[t s1] [a|e]]; simpl; [|done].
    destruct (k a s1) as [[t' s2] r']; simpl. intros (H1 & H2 & H3). by rewrite Forall_app.
  Qed.
  Lemma wp_catch {A} (m : M S A) h (Q : res A → S → Prop) s :
    wp m I (λ r s', match r with
                    | Ok a => Q (Ok a) s'
                    | Err e => match h e with Some m' => wp m' I Q s' | None => Q (Err e) s' end
                    end) s →
    wp (catch m h) I Q s.
  Proof.
    unfold wp, catch. destruct (m s) as [[t s1] [a|e]]; simpl; [done|].
    destruct (h e) as [m'|]; [|done].
    destruct (m' s1) as [[t' s2] r']; simpl. intros (H1 & H2 & H3). by rewrite Forall_app.
  Qed.
  Lemma wp_mono {A} (m : M S A) (Q Q' : res A → S → Prop) s :
    wp m I Q s → (∀ r s', Q r s' → Q' r s') → wp m I Q' s.
  Proof. intros [H1 H2] H. split; [done|]. by apply H. Qed.
  (** An exact run. *)
  Lemma wp_run {A} (m : M S A) (Q : res A → S → Prop) s t s' r : m s = (t, s', r) → Forall I t → Q r s' → wp m I Q s.
  Proof. intros E. unfold wp. by rewrite E. Qed.
End wp.
Lemma wp_trace_mono {S A} (m : M S A) (I I' : S → Prop) (Q : res A → S → Prop) s :
  wp m I Q s → (∀ x, I x → I' x) → wp m I' Q s.
Proof. intros [H1 H2] H. split; [|done]. by eapply Forall_impl. Qed.
Lemma wp_and {S A} (m : M S A) (I I' : S → Prop) (Q Q' : res A → S → Prop) s :
  wp m I Q s → wp m I' Q' s → wp m (λ x, I x ∧ I' x) (λ r x, Q r x ∧ Q' r x) s.
Proof. intros [H1 H2] [H3 H4]. split; [|done]. by apply Forall_and. Qed.
Lemma wp_for_inv {S A} (I : S → Prop) (l : list A) (body : A → M S unit) (J : list A → S → Prop) (Q : res unit → S → Prop) s :
  J [] s →
  (∀ done x rest s, l = done ++ x :: rest → J done s →
     wp (body x) I (λ r s', match r with Ok _ => J (done ++ [x]) s' | Err e => Q (Err e) s' end) s) →
  (∀ s, J l s → Q (Ok tt) s) →
  wp (for_ l body) I Q s.
Proof.
  intros H0 Hstep Hend.
  assert (∀ rest pre s, l = pre ++ rest → J pre s → wp (for_ rest body) I Q s) as G; [|by apply (G l [])].
  induction rest as [|x rest IH]; intros pre s' El HJ; simpl.
  - rewrite app_nil_r in El. subst pre. apply wp_ret. by apply Hend.
  - apply wp_bind. eapply wp_mono; [by eapply Hstep|]. simpl. intros [[]|e] s1; [|done]. intros HJ'.
    apply (IH (pre ++ [x])); [by rewrite El, <-app_assoc|done].
Qed.

Lemma bind_assoc {S A B C} (m : M S A) (f : A → M S B) (g : B → M S C) s :
  bind (bind m f) g s = bind m (λ x, bind (f x) g) s.
Proof.
  unfold bind. destruct (m s) as [[t s1] [a|e]]; [|done]. destruct (f a s1) as [[t' s2] [b|e]]; [|done].
  destruct (g b s2) as [[t'' s3] r]. by rewrite app_assoc.
Qed.

(** Facts that every run keeps, whatever its result. *)
Definition keeps {S A} (P : S → Prop) (m : M S A) : Prop := ∀ s, P s → wp m P (λ _ s', P s') s.
Section keeps.
  Context {S : Type} (P : S → Prop).
  Lemma keeps_ret {A} (a : A) : keeps P (ret a).
  Proof. intros s H. by apply wp_ret. Qed.
  Lemma keeps_throw {A} e : keeps P (@throw S A e).
  Proof. intros s H. by apply wp_throw. Qed.
  Lemma keeps_get {A} (f : S → A) : keeps P (get f).
  Proof. intros s H. by apply wp_get. Qed.
  Lemma keeps_eval {A} (f : S → res A) : keeps P (eval f).
  Proof. intros s H. by apply wp_eval. Qed.
  Lemma keeps_put f : (∀ s, P s → P (f s)) → keeps P (put f).
  Proof. intros Hf s H. apply wp_put; by apply Hf. Qed.
  Lemma keeps_mut f : (∀ s, P s → P (f s)) → keeps P (mut f).
  Proof. intros Hf s H. apply wp_mut; by apply Hf. Qed.
  Lemma keeps_bind {A B} (m : M S A) (k : A → M S B) : keeps P m → (∀ a, keeps P (k a)) → keeps P (bind m k).
  Proof.
    intros Hm Hk s H. apply wp_bind. eapply wp_mono; [by apply Hm|]. intros [a|e] s' H'; [by apply Hk|done].
  Qed.
  Lemma keeps_catch {A} (m : M S A) h : keeps P m → (∀ e m', h e = Some m' → keeps P m') → keeps P (catch m h).
  Proof.
    intros Hm Hk s H. apply wp_catch. eapply wp_mono; [by apply Hm|]. intros [a|e] s' H'; [done|].
    destruct (h e) eqn:E; [by eapply Hk|done].
  Qed.
  Lemma keeps_for {A} (l : list A) body : (∀ x, x ∈ l → keeps P (body x)) → keeps P (for_ l body).
  Proof.
    intros H. induction l as [|x l IH]; simpl; [apply keeps_ret|]. apply keeps_bind; [apply H; left|].
    intros _. apply IH. intros y Hy. apply H. by right.
  Qed.
End keeps.
