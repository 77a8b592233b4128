(** * ScriptModel: the add() function of import and generate scripts (script/starlark.go, script/convert.go).
    Not modelled: the Starlark interpreter itself and the binding and type checking of the arguments
    (starlark.UnpackArgs: a call with a missing, unknown or ill-typed argument is an error before anything happens).
    A call is the record of its bound arguments; the parameters after the first one marked "?" are all optional. *)
From Verif Require Import Base DateModel PriceModel BookModel.

(** A Starlark value given as an amount. [VFloat None] is NaN or an infinity; other floats are exact rationals. *)
Inductive value := VNone | VFloat (f : option Qc) | VInt (z : Z) | VStr (s : str) | VOther.

Record args := mkArgs {
  a_date : str; a_desc : str; a_amt : value;
  a_ccy : option str; a_denom : option Z; a_account : option str;
  a_amt2 : value; a_ccy2 : option str; a_denom2 : option Z; a_account2 : str;
  a_caccount : option str; a_note : str; a_lnote : str }.
(** script/starlark.go:28 the arguments of GetBuilderFunction *)
Record defaults := mkDef { d_account : str; d_ccy : str; d_counter : str }.

Definition dflt {A} (x : A) (o : option A) : A := match o with Some y => y | None => x end.

Section Script.
  Variable today : Z.
  Variable set_string : str -> option Qc.  (** (big.Rat).SetString *)
  Variable def : defaults.

  (** script/convert.go:123-144 [GetBigRat]; the first option is the nil pointer returned for None. A NaN or
      infinite float leaves the new Rat at 0 (SetFloat64 returns nil, which is ignored). *)
  Definition get_big_rat (v : value) : outcome (option Qc) :=
    match v with
    | VNone => Ok None
    | VFloat (Some q) => Ok (Some q)
    | VFloat None => Ok (Some 0%Qc)
    | VInt z => Ok (Some (qz z))
    | VStr s => match set_string s with Some q => Ok (Some q) | None => Error end
    | VOther => Error
    end.
  (** amt.Mul(amt, big.NewRat(1, denom)): NewRat panics for 0, Mul panics on the nil pointer *)
  Definition scale (amt : option Qc) (denom : Z) : outcome Qc :=
    do r <- new_rat 1 denom;
    match amt with Some q => Ok (q * r)%Qc | None => Panic end.

  (** script/starlark.go:29-111: what one call does to the builder, and whether it returns an error *)
  Definition add (b : builder) (a : args) : outcome (builder * bool) :=
    let ccy := dflt (d_ccy def) (a_ccy a) in
    let ccy2 := dflt (d_ccy def) (a_ccy2 a) in          (* starlark.go:43: the outer default, not the ccy argument *)
    let account := dflt (d_account def) (a_account a) in
    let caccount := dflt (d_counter def) (a_caccount a) in
    let ndate := date_from_string today (a_date a) in
    if ndate =? 0 then Ok (b, true)
    else match get_big_rat (a_amt a) with
         | Error => Ok (b, true)
         | Panic => Panic
         | Diverge => Diverge
         | Ok amt =>
           do v <- scale amt (dflt 1 (a_denom a));
           do b1 <- new_transaction b ndate (a_desc a) (a_note a);
           let b2 := add_posting b1 account ccy v (a_lnote a) in
           let b3 := add_posting b2 caccount ccy (- v)%Qc [] in
           match a_amt2 a, a_account2 a with
           | VNone, [] => Ok (b3, false)
           | v2, acct2 =>
             match get_big_rat v2 with
             | Error => Ok (b3, true)
             | Panic => Panic
             | Diverge => Diverge
             | Ok amt2 =>
               do w <- scale amt2 (dflt 1 (a_denom2 a));
               let b4 := add_posting b3 acct2 ccy2 w [] in
               Ok (add_posting b4 caccount ccy2 (- w)%Qc [], false)
             end
           end
         end.

  (** A script performs add() calls one after another; an error ends the script (Starlark has no handlers). *)
  Fixpoint run_adds (b : builder) (cs : list args) : outcome (builder * bool) :=
    match cs with
    | [] => Ok (b, false)
    | a :: cs' => do (b', err) <- add b a; if (err : bool) then Ok (b', true) else run_adds b' cs'
    end.
End Script.
