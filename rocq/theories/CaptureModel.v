(** * CaptureModel: waiting for the redirect of an OAuth2 login (cmd/download/net.go, monzo.go). *)
From Verif Require Import Base.

(** net.go:103-105: the values of "code" and "state" in the query; None when the name is not there *)
Record query := mkQ { q_codes : option (list str); q_states : option (list str) }.
(** net.go:106: exactly one of both *)
Definition valid_query (q : query) : option (str * str) :=
  match q_codes q, q_states q with Some [c], Some [s] => Some (c, s) | _, _ => None end.

(** Where the main goroutine is: in ListenAndServe (115), past the test of clientErr (120-123), having read code (125), returned. *)
Inductive mpc := MServe | MCode | MState (c : str) | MDone (r : outcome (str * str)).
(** The variables shared by all handlers (96-98), whether the server was closed, and how far every handler is:
    0 not started, 1 first variable set, 2 both set, 3 server closed. *)
Record cap := mkCap { c_code : str; c_state : str; c_err : bool; c_closed : bool; c_pc : nat -> nat; c_main : mpc }.
Definition cap0 : cap := mkCap [] [] false false (fun _ => O) MServe.
Definition set_pc (pc : nat -> nat) (i n : nat) : nat -> nat := fun j => if Nat.eqb j i then n else pc j.

(** Who goes next: handler i, the main goroutine, or the listener breaks (port taken: 117-119). *)
Inductive who := Handler (i : nat) | Main | Broken.

(** net.go:102-113: one step of a handler. net/http runs every request in its own goroutine and Close does not wait for them.
    Simplification: an assignment of a string is one step (in Go it is two words, and this is a data race). *)
Definition handler_step (q : query) (i : nat) (t : cap) : cap :=
  match c_pc t i, valid_query q with
  | O, None => mkCap (c_code t) (c_state t) true (c_closed t) (set_pc (c_pc t) i 2) (c_main t)
  | O, Some (c, _) => mkCap c (c_state t) (c_err t) (c_closed t) (set_pc (c_pc t) i 1) (c_main t)
  | 1%nat, Some (_, s) => mkCap (c_code t) s (c_err t) (c_closed t) (set_pc (c_pc t) i 2) (c_main t)
  | 2%nat, _ => mkCap (c_code t) (c_state t) (c_err t) true (set_pc (c_pc t) i 3) (c_main t)
  | _, _ => t
  end.
(** net.go:115-126: ListenAndServe returns when the server is closed; then the variables are read one after the other. *)
Definition main_step (t : cap) : cap :=
  let go m := mkCap (c_code t) (c_state t) (c_err t) (c_closed t) (c_pc t) m in
  match c_main t with
  | MServe => if c_closed t then (if c_err t then go (MDone Error) else go MCode) else t
  | MCode => go (MState (c_code t))
  | MState c => go (MDone (Ok (c, c_state t)))
  | MDone _ => t
  end.
Definition cap_step (qs : list query) (t : cap) (w : who) : cap :=
  match w with
  | Handler i => match nth_error qs i with Some q => handler_step q i t | None => t end
  | Main => main_step t
  | Broken => match c_main t with
              | MServe => mkCap (c_code t) (c_state t) (c_err t) (c_closed t) (c_pc t) (MDone Error)
              | _ => t
              end
  end.
(** net.go:95-126 [CaptureCode] for the requests [qs], under the schedule [sched] *)
Definition capture (qs : list query) (sched : list who) : cap := fold_left (cap_step qs) sched cap0.

(** monzo.go:140-148: the code handed to Exchange; None: an error instead *)
Definition exchanged (mine : str) (t : cap) : option str :=
  match c_main t with MDone (Ok (c, s)) => if str_eqb s mine then Some c else None | _ => None end.
