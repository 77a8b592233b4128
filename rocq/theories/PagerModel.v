(** * PagerModel: where the output of a command goes (/repo/cmd/app/app.go, print.go): the terminal or the pager less, and how a command ends. *)
From Verif Require Import Base Regex Dec DateModel PriceModel BookModel OpsModel BookOpModel RegisterModel AccumModel Utf8 LoaderModel ExportModel PrintModel CmdModel.

(** print.go:19-35: the size of the terminal, -1 when standard output is none or does not tell. app.go:93-113: whether less is found and starts. *)
Record tty := mkTTY { t_width : Z; t_height : Z; t_less : bool }.
Definition no_tty : tty := mkTTY (-1) (-1) true.

(** What has been written: to standard output, and to the pager if it was started (appCleanup is set, app.go:76, 116). *)
Record world := mkWorld { on_term : str; in_pager : option str }.
Definition start_world : world := mkWorld [] None.
(** One printer: is its field w the pipe to the pager? *)
Definition write (paged : bool) (s : str) (w : world) : world :=
  if paged then mkWorld (on_term w) (option_map (fun t => t ++ s) (in_pager w)) else mkWorld (on_term w ++ s) (in_pager w).
(** app.go:78-128 [initialiseLess]. [paged] says that the writer is the pipe already, which is not os.Stdout. The output of the commands
    is os.Stdout (app.go:205; only the unused web command sets another one). *)
Definition initialise_less (t : tty) (w : world) (paged : bool) : world * bool :=
  match in_pager w with
  | Some _ => (w, paged)
  | None => if paged || (t_width t =? -1) then (w, paged) else if t_less t then (mkWorld (on_term w) (Some []), true) else (w, paged)
  end.

(** What a command does with its printers: a new printer, text, a table, the end by an error or a crash. *)
Inductive action := ANew | APrint (s : str) | ATable (rows : list row) (shrink : list bool) | AFail | ACrash.
Inductive status := Done | Failed | Crashed.

Section Exec.
  Variable is_print : Z -> bool.
  Variable t : tty.
  (** print.go:182-257 [PrintColumns] writes only when all widths are known (print.go:190-241); a missing cell panics there. The text of a
      table is therefore written as a whole or not at all. *)
  Fixpoint exec (acts : list action) (w : world) (paged : bool) : world * status :=
    match acts with
    | [] => (w, Done)
    | ANew :: acts' => exec acts' w false
    | APrint s :: acts' => exec acts' (write paged s w) paged
    | ATable rows shrink :: acts' =>
        let '(w, paged) := if t_height t <? Z.of_nat (length rows) then initialise_less t w paged else (w, paged) in
        match print_columns is_print (t_width t) rows shrink with
        | Ok s => exec acts' (write paged s w) paged
        | _ => (w, Crashed)
        end
    | AFail :: _ => (w, Failed)
    | ACrash :: _ => (w, Crashed)
    end.
  (** app.go:150-157: PersistentPostRun closes the pipe and waits for the pager; cobra runs it only when RunE returns nil. [true]: closed and waited for. *)
  Definition command (acts : list action) : world * status * bool :=
    let '(w, s) := exec acts start_world false in
    (w, s, match s, in_pager w with Done, Some _ => true | _, _ => false end).
End Exec.

Definition stop {A} (o : outcome A) (f : A -> list action) : list action := match o with Ok x => f x | Error => [AFail] | Panic | Diverge => [ACrash] end.

Section Commands.
  Variable f64 : Qc -> Qc.
  Variable is_letter : Z -> bool.
  Variable colour : bool.
  (** reports.run, Type Text, and text.go:10-81, for what report_run hands over *)
  Definition report_actions (o : outcome (book * list trans)) : list action :=
    stop o (fun x => ANew :: stop (summary_table f64 is_letter (bk_ccy (fst x)) colour (snd x)) (fun rows => [ATable rows (repeat false (S (length (snd x))))])).
  (** accounts.go:36-52 without --json *)
  Definition accts_actions (o : outcome (list str)) : list action :=
    ANew :: stop o (fun accts => [ATable (Some [Some (ColString (ansi colour BlueUL (bs "Account")))] :: map (fun a => Some [Some (ColString a)]) accts) [false]]).

  Variable srt : list posting -> list posting.
  Variable compile : str -> option regexp.
  Variable today : Z.
  Variable base : str.
  Variable all : bool.
  Variable count : Z.
  Variable asc : bool.
  (** show_register.go:17-108: one register in the format Text *)
  Definition show_actions (decs : list (str * Z)) (withAcct : bool) (rep : list entry) : list action :=
    stop (register_rows f64 is_letter decs colour withAcct true (show_rows count asc rep))
      (fun rows => [ATable (Some (register_header colour withAcct true) :: rows) (register_shrink withAcct true)]).
  (** register.go:108-119: one account after the other; what follows a failure is not done *)
  Fixpoint accounts_actions (o : register_opts) (decs : list (str * Z)) (accts : list str) (b : book) : list action :=
    match accts with
    | [] => []
    | a :: accts' =>
        APrint ([10] ++ ansi colour BlueUL a ++ [10]) ::
        match compile (bs "^" ++ a ++ bs "$") with
        | None => [AFail]
        | Some re => stop (one_register srt today base o (rx_match re) b) (fun x => show_actions decs false (snd x) ++ accounts_actions o decs accts' (fst x))
        end
    end.
  (** register.go:91-123, after the conversion and the operations *)
  Definition register_actions (o : register_opts) (pat : str) (b : book) : list action :=
    ANew :: if go_combined o then
      match compile pat with
      | None => [AFail]
      | Some re => stop (one_register srt today base o (rx_match re) b) (fun x => show_actions (bk_ccy b) true (snd x))
      end
    else stop (list_accounts compile all pat b) (fun accts => accounts_actions o (bk_ccy b) accts b).
End Commands.
