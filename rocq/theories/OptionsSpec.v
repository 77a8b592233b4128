(** * OptionsSpec: what the options of a command mean (C116), from the help texts and the documented configuration keys. *)
From Verif Require Import Base BookOpModel CfgSpec OptionsModel.

(** What stands on the command line behind the name of the command: options and other words. *)
Inductive item := Opt (name text : str) | Word (w : str).
(** A switch may be given without a value, any other option has one. [letter x]: the option whose short form is -x. *)
Inductive written (switch : str -> bool) (letter : Z -> str) : list item -> list str -> Prop :=
| W_end : written switch letter [] []
| W_equals n v l args : n <> [] -> ~ In 61 n -> hd 0 n <> 45 -> written switch letter l args -> written switch letter (Opt n v :: l) ((bs "--" ++ n ++ bs "=" ++ v) :: args)
| W_two n v l args : n <> [] -> ~ In 61 n -> hd 0 n <> 45 -> switch n = false -> written switch letter l args -> written switch letter (Opt n v :: l) ((bs "--" ++ n) :: v :: args)
| W_switch n l args : n <> [] -> ~ In 61 n -> hd 0 n <> 45 -> switch n = true -> written switch letter l args -> written switch letter (Opt n (bs "true") :: l) ((bs "--" ++ n) :: args)
| W_letter x v l args : x <> 45 -> switch (letter x) = false -> written switch letter l args -> written switch letter (Opt (letter x) v :: l) ([45; x] :: v :: args)
| W_letter_at x v l args : x <> 45 -> switch (letter x) = false -> v <> [] -> hd 0 v <> 61 -> written switch letter l args -> written switch letter (Opt (letter x) v :: l) ((45 :: x :: v) :: args)
| W_letter_equals x v l args : x <> 45 -> v <> [] -> written switch letter l args -> written switch letter (Opt (letter x) v :: l) ((45 :: x :: 61 :: v) :: args)
| W_letter_switch x l args : x <> 45 -> switch (letter x) = true -> written switch letter l args -> written switch letter (Opt (letter x) (bs "true") :: l) ([45; x] :: args)
| W_joined x y r l args : x <> 45 -> y <> 45 -> y <> 61 -> switch (letter x) = true -> written switch letter l ((45 :: y :: r) :: args) ->
    written switch letter (Opt (letter x) (bs "true") :: l) ((45 :: x :: y :: r) :: args)
| W_word w l args : hd 0 w <> 45 -> written switch letter l args -> written switch letter (Word w :: l) (w :: args)
| W_rest ws : written switch letter (map Word ws) (bs "--" :: ws).
(** The letters of a command; any other letter x is an option "-x" that no command has. *)
Definition letter_of (letters : list (Z * str)) (x : Z) : str := match find (fun l => fst l =? x) letters with Some l => snd l | None => [45; x] end.
Definition common_letters : list (Z * str) := [(108, bs "ledger"); (104, bs "help")].
Definition words (l : list item) : list str := flat_map (fun i => match i with Word w => [w] | Opt _ _ => [] end) l.

(** The options: what a value is, the key in the configuration file (upper and lower case do not matter), the value without both. *)
Inductive sort := AnyText | Switch | Number | OneOf (values : list str) | Format.
(** An import format: a type, or a type, a colon and parameters of which none is set a second time (C66). *)
Definition format_text (t : str) : Prop := ~ In 58 t \/ exists ty ps, t = config_text ty ps /\ ~ In 58 ty /\ ps <> [] /\ Forall item_ok ps /\ ~ repeated ps.
Record option_doc := mkOption { o_name : str; o_sort : sort; o_key : list str; o_default : value }.
Definition common (lang : str) : list option_doc :=
  [mkOption (bs "ledger") AnyText [bs "ledger"] (VS (bs "main.ledger")); mkOption (bs "ccy") AnyText [bs "baseccy"] (VS []);
   mkOption (bs "divider") AnyText [bs "divider"] (VS (bs ":")); mkOption (bs "lang") AnyText [bs "lang"] (VS lang);
   mkOption (bs "verbose") Switch [bs "verbose"] (VB false); mkOption (bs "colour") Switch [bs "colour"] (VB true); mkOption (bs "all") Switch [bs "all"] (VB false);
   mkOption (bs "help") Switch [] (VB false)].
Definition report_options : list option_doc :=
  [mkOption (bs "splitby") (OneOf [bs "yearly"; bs "quarterly"; bs "monthly"; bs "today"; bs "none"; bs "skip"]) [bs "report"; bs "combineby"] (VS []);
   mkOption (bs "type") (OneOf [bs "Text"; bs "Ledger"; bs "Json"; bs "HTML"; bs "Beancount"]) [bs "report"; bs "type"] (VS []);
   mkOption (bs "sum") Switch [bs "report"; bs "sum"] (VB false); mkOption (bs "convert") Switch [bs "report"; bs "convert"] (VB false);
   mkOption (bs "jsonpretty") Switch [bs "report"; bs "jsonpretty"] (VB false); mkOption (bs "htmlcss") AnyText [bs "report"; bs "htmlcss"] (VS []);
   mkOption (bs "credit") AnyText [bs "report"; bs "credit"] (VS []); mkOption (bs "hidden") AnyText [bs "report"; bs "hidden"] (VS [])].
Definition register_options : list option_doc :=
  [mkOption (bs "type") (OneOf [bs "Text"; bs "JSON"; bs "CSV"]) [bs "register"; bs "type"] (VS []);
   mkOption (bs "combined") Switch [bs "register"; bs "combined"] (VB false); mkOption (bs "begin") AnyText [bs "register"; bs "begindate"] (VS []);
   mkOption (bs "asof") AnyText [bs "register"; bs "enddate"] (VS []); mkOption (bs "count") Number [bs "register"; bs "count"] (VI 0);
   mkOption (bs "asc") Switch [bs "register"; bs "asc"] (VB false); mkOption (bs "zero") Switch [bs "register"; bs "zerostart"] (VB false);
   mkOption (bs "split") Switch [bs "register"; bs "split"] (VB false); mkOption (bs "convert") Switch [bs "register"; bs "convert"] (VB false)].
Definition export_options : list option_doc :=
  [mkOption (bs "type") (OneOf [bs "Ledger"; bs "Json"; bs "Beancount"; bs "CSV"]) [bs "export"; bs "type"] (VS []);
   mkOption (bs "jsonpretty") Switch [bs "export"; bs "jsonpretty"] (VB false)].
Definition accts_options : list option_doc := [mkOption (bs "json") Switch [] (VB false)].
Definition is_switch (os : list option_doc) (n : str) : bool := existsb (fun o => str_eqb (o_name o) n && match o_sort o with Switch => true | _ => false end) os.

(** Upper and lower case do not matter in keys. *)
Definition same_key (a b : list str) : Prop := map (map lower) a = map (map lower) b.
Definition is_opt (n : str) (i : item) : Prop := match i with Opt m _ => m = n | Word _ => False end.

Section Values.
  Variable fold : str -> str -> bool.
  Variable parse_int : str -> option Z.
  (** What a text stands for as the value of an option: the first of the possible values that is the same up to case ([fold]), in its own spelling. *)
  Definition stands_for (s : sort) (t : str) (v : value) : Prop :=
    match s with
    | AnyText => v = VS t
    | Switch => (In t [bs "1"; bs "t"; bs "T"; bs "TRUE"; bs "true"; bs "True"] /\ v = VB true) \/ (In t [bs "0"; bs "f"; bs "F"; bs "FALSE"; bs "false"; bs "False"] /\ v = VB false)
    | Number => exists z, parse_int t = Some z /\ v = VI z
    | OneOf vs => exists l1 w l2, vs = l1 ++ w :: l2 /\ fold w t = true /\ Forall (fun x => fold x t = false) l1 /\ v = VS w
    | Format => format_text t /\ v = VS t
    end.
  Definition usable (os : list option_doc) (i : item) : Prop := match i with Word _ => True | Opt n t => exists o v, In o os /\ o_name o = n /\ stands_for (o_sort o) t v end.
  (** The value of an option: the last one on the command line; else the last one in the configuration file; else the built-in one. *)
  Inductive in_effect (o : option_doc) (line : list item) (file : list (list str * value)) : value -> Prop :=
  | E_line l1 t l2 v : line = l1 ++ Opt (o_name o) t :: l2 -> Forall (fun i => ~ is_opt (o_name o) i) l2 -> stands_for (o_sort o) t v -> in_effect o line file v
  | E_file e1 k v e2 : Forall (fun i => ~ is_opt (o_name o) i) line -> file = e1 ++ (k, v) :: e2 -> o_key o <> [] -> same_key k (o_key o) -> Forall (fun e => ~ same_key (fst e) (o_key o)) e2 ->
      in_effect o line file v
  | E_default : Forall (fun i => ~ is_opt (o_name o) i) line -> Forall (fun e => o_key o = [] \/ ~ same_key (fst e) (o_key o)) file -> in_effect o line file (o_default o).
End Values.
(** A value as a text, switch or number. *)
Definition txt (v : value) : str := match v with VS s => s | _ => [] end.
Definition on (v : value) : bool := match v with VB b => b | _ => false end.
Definition num (v : value) : Z := match v with VI z => z | _ => 0 end.
(** The macros of the file. *)
Definition macros_in (file : list (list str * value)) (macros : str -> option (list str)) : Prop := forall name,
  (exists e1 k ops e2, file = e1 ++ ([k; name], VL ops) :: e2 /\ same_key [k] [bs "macros"] /\
     Forall (fun e => ~ exists k', fst e = [k'; name] /\ same_key [k'] [bs "macros"]) e2 /\ macros name = Some ops) \/
  (Forall (fun e => ~ exists k', fst e = [k'; name] /\ same_key [k'] [bs "macros"]) file /\ macros name = None).
