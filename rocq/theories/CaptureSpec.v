(** * CaptureSpec: what is expected of the login (C89). *)
From Verif Require Import Base CaptureModel.
(** A request carried exactly the code [c] and the state [s]. *)
Definition carried (qs : list query) (c s : str) : Prop := In (mkQ (Some [c]) (Some [s])) qs.
(** Handlers and the main goroutine run one after the other: [order] is a list of requests served whole, then the main goroutine. *)
Definition one_by_one (order : list nat) (after : list who) : list who := flat_map (fun i => [Handler i; Handler i; Handler i]) order ++ [Main; Main; Main] ++ after.
