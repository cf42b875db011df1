(** The checks of the free space: /repo/zielen/userdata.py 108-130,
    filelogic.py 469-473 and /repo/zielen/commands/reset.py 54-58. *)
From Coq Require Import QArith Qcanon.
From Verif Require Export InitReset.
From stdpp Require Import options.

(** userdata.py 108-122, [disk_usage], of the entries that [scan_paths]
    returns. *)
Definition dir_usage (C : conf) (s : nmap) : Z := zsum (λ pn : path * node, c_blocks C pn.1 pn.2) (map_to_list s).

(** filelogic.py 460-488, [setup_from_local].  [free] is what [space_avail]
    (userdata.py 124-130) returns for the remote directory.  The check in the
    middle depends only on the scan that the method begins with and that is
    cached then. *)
Definition setup_from_local_free (C : conf) (free : Z) : M world unit :=
  ls ←! local_scan C true;
  setup_from_local C (bool_decide (dir_usage C ls ≤ free)%Z).
(** init.py 147-167 as [init_main], with the check. *)
Definition init_free (C : conf) (add_remote : bool) (free : Z) : M world unit :=
  (generate C ;!
   (if add_remote then setup_from_remote C else setup_from_local_free C free) ;!
   add_exclude_file C) ;!
  sync_finish C.

(** reset.py 44-109 as [reset_main], with the check of lines 56-58; [free] is
    the space that is available where the local directory is. *)
Definition reset_free (C : conf) (keep_remote no_retrieve : bool) (free : Z) : M world unit :=
  if no_retrieve then reset_main C keep_remote true true
  else
    rs ←! remote_scan C true;
    reset_main C keep_remote false (bool_decide (dir_usage C rs ≤ free)%Z).
