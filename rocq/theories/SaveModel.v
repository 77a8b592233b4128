(** * SaveModel: saving and loading a state file, /repo/cmd/utils/json.go [SaveToFile], [LoadFromFile], as steps between
    which the program may be stopped.

    The file is [None] (does not exist) or its contents. Not modelled: permissions, the directory entries themselves,
    data kept back by the operating system after a successful write. *)
From Verif Require Import Base.

Section Save.
  (** Is the name of the file one with ".gz" (lines 133-143)? *)
  Variable gz : bool.
  (** json.MarshalIndent (line 146); [None] is an error. *)
  Variable marshal : option str.
  (** compress/gzip: the stream for some data, and how much of it Write passes on before Close does. *)
  Variable zip : str -> str.
  Variable early : str -> nat.

  (** What Write, and what the deferred Close, send to the file. *)
  Definition by_write (b : str) : str := if gz then firstn (early b) (zip b) else b.
  Definition by_close (b : str) : str := if gz then skipn (early b) (zip b) else [].

  (** Where the program is. [PWrite r l]: [r] is still to be written by Write, [l] by Close. [PClose r ok]: in the
      deferred closing functions, [r] still to be written; [ok]: the function is about to return nil. *)
  Inductive pc := PStart | PMade | POpen | PWrite (r l : str) | PClose (r : str) (ok : bool) | PEnd (ok : bool).
  Definition state := (pc * option str)%type.

  (** The boolean says whether the operating system reported a failure in this step. *)
  Inductive step : bool -> state -> state -> Prop :=
  | st_mkdir f : step false (PStart, f) (PMade, f)                                  (* line 111 *)
  | st_mkdir_fail f : step true (PStart, f) (PEnd false, f)                         (* lines 112-114 *)
  | st_open f : step false (PMade, f) (POpen, Some [])                              (* line 117: O_TRUNC *)
  | st_open_fail f : step true (PMade, f) (PEnd false, f)                           (* lines 118-120 *)
  | st_marshal f b : marshal = Some b -> step false (POpen, f) (PWrite (by_write b) (by_close b), f)
  | st_marshal_fail f : marshal = None ->                                           (* lines 147-149 *)
      step false (POpen, f) (PClose (if gz then zip [] else []) false, f)
  | st_write c a r l : a <> [] -> step false (PWrite (a ++ r) l, Some c) (PWrite r l, Some (c ++ a))   (* line 152 *)
  | st_written f l : step false (PWrite [] l, f) (PClose l true, f)                 (* line 157 *)
  | st_write_fail f r l : step true (PWrite r l, f) (PClose [] false, f)            (* lines 153-155 *)
  | st_close c a r ok : a <> [] -> step false (PClose (a ++ r) ok, Some c) (PClose r ok, Some (c ++ a))
  | st_closed f ok : step false (PClose [] ok, f) (PEnd ok, f)
  | st_close_fail f r ok : step true (PClose r ok, f) (PEnd ok, f).  (* lines 123-129, 135-141: the error is kept only if there is one already *)

  (** Runs of the program; the flag says whether a failure was reported on the way. *)
  Inductive run : bool -> state -> state -> Prop :=
  | run_refl s : run false s s
  | run_step fl fl' s s' s'' : run fl s s' -> step fl' s' s'' -> run (fl || fl') s s''.
End Save.

(** json.go:67-106 [LoadFromFile]: [Ok None] leaves the data as they are (the file does not exist). [unmarshal] is
    json.Unmarshal. *)
Definition load {D} (gz : bool) (unzip : str -> option str) (unmarshal : str -> option D) (f : option str) : outcome (option D) :=
  match f with
  | None => Ok None
  | Some c =>
      match (if gz then unzip c else Some c) with
      | None => Error
      | Some b => match unmarshal b with None => Error | Some d => Ok (Some d) end
      end
  end.
