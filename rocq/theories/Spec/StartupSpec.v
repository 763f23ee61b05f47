(** What can go wrong when processes start, and on which of them. *)
From Verif Require Import Lib.Base Lib.Str Model.Stations Model.Startup.
Local Open Scope string_scope.

(** nothing is wrong with the directories, the log level and the file of options *)
Definition no_trouble (tr : trouble) : Prop := t_dirs tr = None /\ t_level tr = None /\ t_dump tr = None.
(** something that only the first process does fails: the directories, the file of options, or the search in the archive;
    settings of a wrong form are a ValueError *)
Definition first_process_fails (archive : list folder) (network station component : value) (tr : trouble) (e : exc) : Prop :=
  t_dirs tr = Some e \/
  t_dirs tr = None /\ t_level tr = None /\
  (t_dump tr = Some e \/ t_dump tr = None /\ e <> ValueError /\ find_stations archive network station component = Raise e).
