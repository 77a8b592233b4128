(** * DownloadSpec: servers and schedules. *)
From Verif Require Import Base DownloadModel.

(** ** A server with a fixed history, oldest transaction first *)
Section History.
  Variable parse : str -> option Z.
  (** The creation time of a transaction is readable and is [t]. *)
  Definition created_at (x : tx) (t : Z) : Prop := parse (tx_created x) = Some t.
  Definition time (x : tx) : Z := match parse (tx_created x) with Some t => t | None => 0 end.

  Record history (h : list tx) : Prop := {
    h_ids : NoDup (map tx_id h);
    h_times : forall x, In x h -> exists t, created_at x t /\ zero_time <= t;
    h_order : StronglySorted (fun x y => time x <= time y) h
  }.
  (** The transactions not older than [since]. *)
  Definition not_older (since : option Z) (x : tx) : bool :=
    match since with None => true | Some s => s <=? time x end.
  (** Every request is answered with the oldest [limit] transactions not older than [since]. *)
  Definition serves (limit : nat) (h : list tx) (server : nat -> option Z -> answer) : Prop :=
    forall n since, server n since = Page (firstn limit (filter (not_older since) h)).
  (** A server that refuses to serve the whole history. *)
  Definition serves_recent (limit : nat) (h : list tx) (server : nat -> option Z -> answer) : Prop :=
    (forall n, server n None = Forbidden) /\
    forall n s, server n (Some s) = Page (firstn limit (filter (not_older (Some s)) h)).
  (** Fewer than [limit] transactions in any 61 seconds. *)
  Definition sparse (limit : nat) (h : list tx) : Prop :=
    forall a : Z, (length (filter (fun x => Z.leb a (time x) && Z.ltb (time x) (a + 61 * second)) h) < limit)%nat.
End History.

(** ** A schedule of throttled requests: [rq_now] when the throttler is entered, [rq_out] when it is left, [rq_late]
    by how much its sleep was too long. *)
Record request := mkRq { rq_now : Z; rq_out : Z; rq_late : Z }.
(** The throttler is run from the state [last]: it is entered after it was left before, it sleeps as long as
    [throttle] says or longer (time.Sleep), never shorter. *)
Inductive schedule (min : Z) : Z -> list request -> Prop :=
| sch_nil last : schedule min last []
| sch_cons last last' r l wait :
    throttle min last (rq_now r) = (wait, last') ->
    match wait with None => 0 | Some d => d end + rq_now r + rq_late r = rq_out r -> 0 <= rq_late r -> (wait = None -> rq_late r = 0) ->
    match l with [] => True | r' :: _ => rq_out r <= rq_now r' end ->
    schedule min last' l -> schedule min last (r :: l).
