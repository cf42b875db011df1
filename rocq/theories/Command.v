(** Selecting, naming, checking and locking profiles:
    /repo/zielen/commandbase.py and /repo/zielen/commands/init.py. *)
From stdpp Require Export gmap.
From Verif Require Export Utf8 Mon.
From stdpp Require Import options.

(** init.py 77-82: which names are accepted.  [word c] says whether [\w]
    matches; outside ASCII it depends on the Unicode tables. *)
Definition ascii_word (c : N) : bool :=
  ((48 <=? c) && (c <=? 57) || (65 <=? c) && (c <=? 90) || (97 <=? c) && (c <=? 122) || (c =? 95))%N.
Definition name_chars (word : N → bool) (s : str) : bool :=
  negb (bool_decide (s = [])) && forallb (λ c, word c || (c =? c_dash)%N) s.
(** [$] also matches before a newline at the end. *)
Definition name_regex (word : N → bool) (s : str) : bool :=
  name_chars word s
  || match rev s with
     | c :: r => (c =? c_nl)%N && name_chars word (rev r)
     | [] => false
     end.
Definition name_accepted (word : N → bool) (s : str) : bool :=
  if existsb is_space s then false else name_regex word s.

(** profile.py 62: the directory of a profile. *)
Definition profile_dir (profiles_dir name : str) : str := pjoin profiles_dir name.

(** commandbase.py 73-95, [select_profile].  [exists_] is the result of
    [os.path.exists] on the input.  [Profile] has no attribute [cfg], so that
    looking at the first profile raises AttributeError. *)
Inductive selection := Selected (name : str) | SelInputErr | SelAttributeErr.
Definition select_profile (names : list str) (exists_ : bool) (input : str) : selection :=
  if bool_decide (input ∈ names) then Selected input
  else if exists_ then match names with [] => SelInputErr | _ => SelAttributeErr end
  else SelInputErr.

(** init.py 181-214, [_verify_local_dir]: [profiles] are the other profiles
    that have a configuration file, with their local directories. *)
Inductive verdict := VOk | VProgram | VProfiles (names : list str) | VValueErr.
Fixpoint overlapping (dir : str) (profiles : list (str * str)) : option (list str) :=
  match profiles with
  | [] => Some []
  | (name, p) :: r =>
      match commonpath p dir, overlapping dir r with
      | Some c, Some l => Some (if bool_decide (c = p ∨ c = dir) then name :: l else l)
      | _, _ => None
      end
  end.
Definition verify_local_dir (program_dir dir : str) (profiles : list (str * str)) : verdict :=
  match commonpath dir program_dir with
  | None => VValueErr
  | Some c =>
      if bool_decide (c = dir ∨ c = program_dir) then VProgram
      else match overlapping dir profiles with
           | None => VValueErr
           | Some [] => VOk
           | Some l => VProfiles l
           end
  end.

(** commandbase.py 124-130: the name of the socket.  The kernel allows 108
    bytes, the first of which is NUL; a name that is too long or cannot be
    encoded raises an error like a name that is taken. *)
Definition lock_name (uid : N) (name : str) : str := lit "zielen-" ++ show_N uid ++ lit "-" ++ name.
Definition socket_name (uid : N) (name : str) : option (list N) :=
  match utf8 (lock_name uid name) with
  | Some b => if bool_decide (S (length b) <= 108) then Some b else None
  | None => None
  end.

(** Processes that run commands.  [sockets]: which process has bound a name. *)
Inductive pstate := PStart | PInside | PDone.
Record system := System { sockets : gmap (list N) nat; states : gmap nat pstate }.
(** commandbase.py 114-133, [lock]: binding fails if the name is in use. *)
Definition do_lock (who : nat → N * str) (i : nat) (s : system) : system :=
  match states s !! i with
  | Some PStart =>
      match socket_name (who i).1 (who i).2 with
      | Some b => match sockets s !! b with
                  | None => System (<[b := i]> (sockets s)) (<[i := PInside]> (states s))
                  | Some _ => System (sockets s) (<[i := PDone]> (states s))
                  end
      | None => System (sockets s) (<[i := PDone]> (states s))
      end
  | _ => s
  end.
(** commandbase.py 34-45, [unlock]: [finally: self.lock_socket.close()], when
    the command returns or raises; or the process dies, and the kernel closes
    its sockets. *)
Definition close_all (i : nat) (s : system) : system :=
  System (filter (λ kv, kv.2 ≠ i) (sockets s)) (<[i := PDone]> (states s)).
Inductive event := Start (i : nat) | Lock (i : nat) | Finish (i : nat) | Die (i : nat).
Definition run_event (who : nat → N * str) (s : system) (ev : event) : system :=
  match ev with
  | Start i => match states s !! i with None => System (sockets s) (<[i := PStart]> (states s)) | Some _ => s end
  | Lock i => do_lock who i s
  | Finish i => match states s !! i with Some PInside => close_all i s | _ => s end
  | Die i => match states s !! i with Some _ => close_all i s | None => s end
  end.
Definition run_events (who : nat → N * str) (l : list event) : system := foldl (run_event who) (System ∅ ∅) l.

(** init.py 95-172 as far as the files of the profile, the checks of the
    directories and the first files in the remote directory go.  The profile is
    read (95-99) before it is locked (106).  [info.json] exists with the status
    "partial" before the configuration is written (profile.py 95-122); a
    resumed initialization does not check the directories again.  When a check
    fails, the profile is deleted at exit (70-75).  The remote directory has to
    be empty (140-143); the option --add-remote is left out here. *)
Inductive istatus := IPartial | IInitialized.
Record pdir := PDir { p_status : option istatus; p_local : option str; p_remote_empty : bool }.
Definition init_body (st : option istatus) (check : str → bool) (local : str) : M pdir unit :=
  match st with
  | Some IInitialized => throw InputErr
  | Some IPartial =>
      l ←! get p_local;
      match l with None => throw FileParseErr | Some _ => ret tt end
  | None =>
      put (λ p, PDir (Some IPartial) (p_local p) (p_remote_empty p)) ;!
      put (λ p, PDir (p_status p) (Some local) (p_remote_empty p)) ;!
      e ←! get p_remote_empty;
      if check local && e then ret tt
      else put (λ p, PDir None None (p_remote_empty p)) ;! throw InputErr
  end ;!
  put (λ p, PDir (p_status p) (p_local p) false) ;!
  put (λ p, PDir (Some IInitialized) (p_local p) (p_remote_empty p)).
Definition init_profile (check : str → bool) (local : str) : M pdir unit :=
  st ←! get p_status; init_body st check local.
(** Two initializations of one profile by the same user: each reads the profile,
    then takes the lock if it is free, then runs and releases the lock. *)
Inductive istep := IReads | ILocks | IRuns.
Record irace := IRace { r_pdir : pdir; r_holder : option bool; r_seen : bool → option (option istatus) }.
Definition race_step (check : str → bool) (local : str) (s : irace) (ev : bool * istep) : irace :=
  let '(i, x) := ev in
  match x with
  | IReads => IRace (r_pdir s) (r_holder s) (λ j, if Bool.eqb i j then Some (p_status (r_pdir s)) else r_seen s j)
  | ILocks => match r_seen s i, r_holder s with
              | Some _, None => IRace (r_pdir s) (Some i) (r_seen s)
              | _, _ => s
              end
  | IRuns => if bool_decide (r_holder s = Some i) then
               match r_seen s i with
               | Some st => IRace (init_body st check local (r_pdir s)).1.2 None (r_seen s)
               | None => s
               end
             else s
  end.
Definition race (check : str → bool) (local : str) : list (bool * istep) → irace :=
  foldl (race_step check local) (IRace (PDir None None true) None (λ _, None)).
