(** Model of the unit registry set up by openscm/core/units.py 122-460
    ([_standard_gases], [ScmUnitRegistry]) and of [UnitConverter] with a context
    (463-559).

    pint itself is not part of /repo.  What is used of it is modelled from its
    documented behaviour, and is part of the trusted base:
    - [define("n = [d]")] introduces a base unit, [define("n = k * u")] a derived one; a
      later definition of a name replaces an earlier one; references are resolved when
      a unit is used, not when it is defined;
    - an undefined name is read as a prefix followed by a defined name;
    - a conversion in a context looks for a shortest chain of transformations between
      the two dimensionalities and applies it, then converts as usual.
    Names are case sensitive; plural "s", binary prefixes, exponents, parentheses and
    numbers inside unit strings are not modelled.  Magnitudes are exact rationals
    (definitions) and reals (values), not floats.  The offset units degreeC, degreeF
    (units.py 264-265) are not part of this registry. *)
From Coq Require Import String Ascii List ZArith QArith Reals Qreals Bool.
From Verif Require Import Base Units.
Import ListNotations.
Local Open Scope string_scope.
Local Open Scope list_scope.

(** * Dimensions and registry *)

(** Exponents of base dimensions, sorted by name, no zero exponents: the canonical form
    of pint's dimensionality dictionaries. (for units.py 297-315) *)
Fixpoint dim_ins (n : string) (e : Z) (d : dim) : dim :=
  match d with
  | [] => if (e =? 0)%Z then [] else [(n, e)]
  | (m, k) :: r =>
    match String.compare n m with
    | Lt => if (e =? 0)%Z then d else (n, e) :: d
    | Eq => if (k + e =? 0)%Z then r else (m, (k + e)%Z) :: r
    | Gt => (m, k) :: dim_ins n e r
    end
  end.

(** [d1 ** e * d2] *)
Definition dim_mul (e : Z) (d1 d2 : dim) : dim :=
  fold_right (fun x acc => dim_ins (fst x) (e * snd x) acc) d2 d1.

(** One definition of the registry: a base unit of a dimension, or a factor times a
    product of powers of other units. (units.py 253-270, 297-315) *)
Inductive unit_def : Type :=
| UBase (d : string)
| UDeriv (k : Q) (refs : list (string * Z)).

(** The registry: most recent definition first. ([ScmUnitRegistry], units.py 245-251) *)
Definition registry := list (string * unit_def).

(** [UnitRegistry.define] (pint). ([self.define], units.py 253-270, 282-295, 297-315) *)
Definition define (reg : registry) (n : string) (d : unit_def) : registry := (n, d) :: reg.

(** A unit expression: a product of powers of unit names. (units.py 282-295) *)
Definition uexpr := list (string * Z).

(** A resolved unit: its magnitude and dimensionality in base units. (units.py 397-399, [to_base_units]) *)
Definition root := (Q * dim)%type.

(** The unit of pure numbers (units.py 397-399) *)
Definition root_one : root := (1%Q, []).
(** [a ** e * b] (units.py 379-390) *)
Definition root_mul (e : Z) (a b : root) : root :=
  (Qred (Qpower (fst a) e * fst b), dim_mul e (snd a) (snd b)).

(** Resolution of a product of powers, given the resolution of single names. (units.py 297-315) *)
Fixpoint resolve_with (f : string -> option root) (e : uexpr) : option root :=
  match e with
  | [] => Some root_one
  | (n, k) :: e' =>
    match f n with
    | None => None
    | Some a =>
      match resolve_with f e' with
      | None => None
      | Some b => Some (root_mul k a b)
      end
    end
  end.

(** pint's decimal prefixes (default_en.txt); prefix names before symbols, longest first
    so that "da" is tried before "d". (used for "GtC" and the like, units.py 282-295; adapters/dice.py 26-72) *)
Definition prefixes : list (string * Q) :=
  [ ("yocto", 1 # (10 ^ 24)); ("zepto", 1 # (10 ^ 21)); ("atto", 1 # (10 ^ 18));
    ("femto", 1 # (10 ^ 15)); ("pico", 1 # (10 ^ 12)); ("nano", 1 # (10 ^ 9));
    ("micro", 1 # (10 ^ 6)); ("milli", 1 # 1000); ("centi", 1 # 100); ("deci", 1 # 10);
    ("deca", 10 # 1); ("hecto", 100 # 1); ("kilo", 1000 # 1); ("mega", (10 ^ 6) # 1);
    ("giga", (10 ^ 9) # 1); ("tera", (10 ^ 12) # 1); ("peta", (10 ^ 15) # 1);
    ("exa", (10 ^ 18) # 1); ("zetta", (10 ^ 21) # 1); ("yotta", (10 ^ 24) # 1);
    ("da", 10 # 1);
    ("y", 1 # (10 ^ 24)); ("z", 1 # (10 ^ 21)); ("a", 1 # (10 ^ 18));
    ("f", 1 # (10 ^ 15)); ("p", 1 # (10 ^ 12)); ("n", 1 # (10 ^ 9)); ("u", 1 # (10 ^ 6));
    ("m", 1 # 1000); ("c", 1 # 100); ("d", 1 # 10); ("h", 100 # 1); ("k", 1000 # 1);
    ("M", (10 ^ 6) # 1); ("G", (10 ^ 9) # 1); ("T", (10 ^ 12) # 1); ("P", (10 ^ 15) # 1);
    ("E", (10 ^ 18) # 1); ("Z", (10 ^ 21) # 1); ("Y", (10 ^ 24) # 1) ].

(** [strip p s] is [Some r] when [s = p ++ r]. (pint, used for units.py 505-517) *)
Fixpoint strip (p s : string) : option string :=
  match p, s with
  | EmptyString, _ => Some s
  | String a p', String b s' => if Ascii.eqb a b then strip p' s' else None
  | String _ _, EmptyString => None
  end.

(** All readings of a name as prefix and defined unit. (pint, used for units.py 505-517) *)
Definition candidates (reg : registry) (n : string) : list (Q * string) :=
  flat_map (fun p =>
    match strip (fst p) n with
    | Some r => match alookup r reg with Some _ => [(snd p, r)] | None => [] end
    | None => []
    end) prefixes.

(** [UnitRegistry.parse_unit_name]: a defined name is itself, otherwise the first
    reading with a prefix. (used for units.py 505-517) *)
Definition parse_name (reg : registry) (n : string) : option (Q * string) :=
  match alookup n reg with
  | Some _ => Some (1%Q, n)
  | None => match candidates reg n with c :: _ => Some c | [] => None end
  end.

(** [UnitRegistry._get_root_units]: follow definitions down to base units.  [fuel] bounds
    the length of the chain of references; pint has no bound (a cyclic chain would be a
    RecursionError). (used for units.py 505-517) *)
Fixpoint resolve_name (reg : registry) (fuel : nat) (n : string) : option root :=
  match fuel with
  | O => None
  | S fuel' =>
    match parse_name reg n with
    | None => None
    | Some (k, stem) =>
      match alookup stem reg with
      | None => None
      | Some (UBase d) => Some (Qred k, [(d, 1%Z)])
      | Some (UDeriv c refs) =>
        match resolve_with (resolve_name reg fuel') refs with
        | None => None
        | Some (q, d) => Some (Qred (k * c * q), d)
        end
      end
    end
  end.

(** The longest reference chain of the registry below has 6 steps. *)
Definition fuel : nat := 10.

(** A product of powers in base units (pint, used for units.py 505-517) *)
Definition resolve (reg : registry) (e : uexpr) : option root :=
  resolve_with (resolve_name reg fuel) e.

(** * Unit strings *)

(** Words and operators of a unit string; blanks separate words. (pint, used for units.py 505-506) *)
Inductive token := TName (s : string) | TMul | TDiv.

(** A word that ends (pint, used for units.py 505-506) *)
Definition flush (w : string) (l : list token) : list token :=
  match w with EmptyString => l | _ => TName w :: l end.

(** The words and operators of a text; [w]: the word begun (pint, used for units.py 505-506) *)
Fixpoint tokens (s w : string) : list token :=
  match s with
  | EmptyString => flush w []
  | String c s' =>
    if Ascii.eqb c " " then flush w (tokens s' "")
    else if Ascii.eqb c "*" then flush w (TMul :: tokens s' "")
    else if Ascii.eqb c "/" then flush w (TDiv :: tokens s' "")
    else tokens s' (w ++ String c "")
  end.

(** Juxtaposition and "*" multiply, "/" divides by the next factor only. (pint, used for units.py 505-506) *)
Fixpoint product (l : list token) (sign : Z) : option uexpr :=
  match l with
  | [] => Some []
  | TName n :: l' =>
    match product l' 1%Z with Some e => Some ((n, sign) :: e) | None => None end
  | TMul :: TName n :: l' =>
    match product l' 1%Z with Some e => Some ((n, 1%Z) :: e) | None => None end
  | TDiv :: TName n :: l' =>
    match product l' 1%Z with Some e => Some ((n, (-1)%Z) :: e) | None => None end
  | _ => None
  end.

(** [UnitRegistry.Unit(string)]: the fragment of pint's unit grammar that consists of
    names, blanks, "*" and "/". (units.py 505-506) *)
Definition parse_unit (s : string) : option uexpr := product (tokens s "") 1%Z.

(** * The standard registry *)

(** One entry of [_standard_gases] (units.py 122-126): a string is a base gas, a list
    gives the conversion and further names. *)
Inductive gas : Type :=
| GBase (value : string)
| GDerived (factor : Q) (ref : string) (aliases : list string).

(** units.py 127-242 ([_standard_gases]); a conversion such as "12/44 * C" is recorded as
    its factor and the unit it refers to. *)
Definition standard_gases : list (string * gas) :=
  [ ("C", GBase "carbon");
    ("CO2", GDerived (12 # 44) "C" ["carbon_dioxide"]);
    ("CH4", GBase "methane");
    ("N", GBase "nitrogen");
    ("N2O", GDerived (14 # 44) "N" ["nitrous_oxide"]);
    ("N2ON", GDerived (14 # 28) "N" ["nitrous_oxide_farming_style"]);
    ("NOx", GBase "NOx");
    ("nox", GDerived 1 "NOx" []);
    ("NH3", GDerived (14 # 17) "N" ["ammonia"]);
    ("S", GDerived 1 "sulfur" []);
    ("SO2", GDerived (32 # 64) "S" ["sulfur_dioxide"]);
    ("SOx", GDerived 1 "SO2" []);
    ("BC", GBase "black_carbon");
    ("OC", GBase "OC");
    ("CO", GBase "carbon_monoxide");
    ("VOC", GBase "VOC");
    ("NMVOC", GDerived 1 "VOC" ["non_methane_volatile_organic_compounds"]);
    ("CFC11", GBase "CFC11");
    ("CFC12", GBase "CFC12");
    ("CFC13", GBase "CFC13");
    ("CFC113", GBase "CFC113");
    ("CFC114", GBase "CFC114");
    ("CFC115", GBase "CFC115");
    ("HCFC21", GBase "HCFC21");
    ("HCFC22", GBase "HCFC22");
    ("HCFC123", GBase "HCFC123");
    ("HCFC124", GBase "HCFC124");
    ("HCFC141b", GBase "HCFC141b");
    ("HCFC142b", GBase "HCFC142b");
    ("HCFC225ca", GBase "HCFC225ca");
    ("HCFC225cb", GBase "HCFC225cb");
    ("HFC23", GBase "HFC23");
    ("HFC32", GBase "HFC32");
    ("HFC41", GBase "HFC41");
    ("HFC125", GBase "HFC125");
    ("HFC134", GBase "HFC134");
    ("HFC134a", GBase "HFC134a");
    ("HFC143", GBase "HFC143");
    ("HFC143a", GBase "HFC143a");
    ("HFC152", GBase "HFC152");
    ("HFC152a", GBase "HFC152a");
    ("HFC161", GBase "HFC161");
    ("HFC227ea", GBase "HFC227ea");
    ("HFC236cb", GBase "HFC236cb");
    ("HFC236ea", GBase "HFC236ea");
    ("HFC236fa", GBase "HFC236fa");
    ("HFC245ca", GBase "HFC245ca");
    ("HFC245fa", GBase "HFC245fa");
    ("HFC365mfc", GBase "HFC365mfc");
    ("HFC4310mee", GBase "HFC4310mee");
    ("HFC4310", GDerived 1 "HFC4310mee" []);
    ("Halon1201", GBase "Halon1201");
    ("Halon1202", GBase "Halon1202");
    ("Halon1211", GBase "Halon1211");
    ("Halon1301", GBase "Halon1301");
    ("Halon2402", GBase "Halon2402");
    ("CF4", GBase "CF4");
    ("C2F6", GBase "C2F6");
    ("cC3F6", GBase "cC3F6");
    ("C3F8", GBase "C3F8");
    ("cC4F8", GBase "cC4F8");
    ("C4F10", GBase "C4F10");
    ("C5F12", GBase "C5F12");
    ("C6F14", GBase "C6F14");
    ("C7F16", GBase "C7F16");
    ("C8F18", GBase "C8F18");
    ("C10F18", GBase "C10F18");
    ("HFE125", GBase "HFE125");
    ("HFE134", GBase "HFE134");
    ("HFE143a", GBase "HFE143a");
    ("HCFE235da2", GBase "HCFE235da2");
    ("HFE245cb2", GBase "HFE245cb2");
    ("HFE245fa2", GBase "HFE245fa2");
    ("HFE347mcc3", GBase "HFE347mcc3");
    ("HFE347pcf2", GBase "HFE347pcf2");
    ("HFE356pcc3", GBase "HFE356pcc3");
    ("HFE449sl", GBase "HFE449sl");
    ("HFE569sf2", GBase "HFE569sf2");
    ("HFE4310pccc124", GBase "HFE4310pccc124");
    ("HFE236ca12", GBase "HFE236ca12");
    ("HFE338pcc13", GBase "HFE338pcc13");
    ("HFE227ea", GBase "HFE227ea");
    ("HFE236ea2", GBase "HFE236ea2");
    ("HFE236fa", GBase "HFE236fa");
    ("HFE245fa1", GBase "HFE245fa1");
    ("HFE263fb2", GBase "HFE263fb2");
    ("HFE329mcc2", GBase "HFE329mcc2");
    ("HFE338mcf2", GBase "HFE338mcf2");
    ("HFE347mcf2", GBase "HFE347mcf2");
    ("HFE356mec3", GBase "HFE356mec3");
    ("HFE356pcf2", GBase "HFE356pcf2");
    ("HFE356pcf3", GBase "HFE356pcf3");
    ("HFE365mcf3", GBase "HFE365mcf3");
    ("HFE374pc2", GBase "HFE374pc2");
    ("PFPMIE", GBase "PFPMIE");
    ("CCl4", GBase "CCl4");
    ("CHCl3", GBase "CHCl3");
    ("CH2Cl2", GBase "CH2Cl2");
    ("CH3CCl3", GBase "CH3CCl3");
    ("CH3Cl", GBase "CH3Cl");
    ("CH3Br", GBase "CH3Br");
    ("SF5CF3", GBase "SF5CF3");
    ("SF6", GBase "SF6");
    ("NF3", GBase "NF3") ].

(** [ScmUnitRegistry._add_mass_emissions_joint_version] (units.py 282-295). *)
Definition add_joint (reg : registry) (symbol : string) : registry :=
  let reg := define reg ("g" ++ symbol) (UDeriv 1 [("g", 1%Z); (symbol, 1%Z)]) in
  define reg ("t" ++ symbol) (UDeriv 1 [("t", 1%Z); (symbol, 1%Z)]).

(** A name for another unit: ["{} = {}".format(name, symbol)]. (units.py 261-263, 302-315) *)
Definition add_alias (reg : registry) (name symbol : string) : registry :=
  define reg name (UDeriv 1 [(symbol, 1%Z)]).

(** Body of the loop of [ScmUnitRegistry._add_gases] (units.py 297-315). *)
Definition add_gas (reg : registry) (entry : string * gas) : registry :=
  let (symbol, value) := entry in
  let reg :=
    match value with
    | GBase v =>
      let reg := define reg symbol (UBase v) in
      if String.eqb v symbol then reg else add_alias reg v symbol
    | GDerived k ref aliases =>
      let reg := define reg symbol (UDeriv k [(ref, 1%Z)]) in
      fold_left (fun r a => add_alias r a symbol) aliases reg
    end in
  let reg := add_joint reg symbol in
  if String.eqb (upper symbol) symbol then reg
  else add_joint (add_alias reg (upper symbol) symbol) (upper symbol).

(** [ScmUnitRegistry._add_gases] (units.py 297-315). *)
Definition add_gases (reg : registry) (gases : list (string * gas)) : registry :=
  fold_left add_gas gases reg.

(** The part of pint's default registry that matters here (mass and time).  The year is
    the one that /repo/tests/unit/test_units.py 93-95 expects of pint. *)
Definition pint_defaults : registry :=
  [ ("g", UBase "mass"); ("gram", UDeriv 1 [("g", 1%Z)]);
    ("metric_ton", UDeriv 1000 [("kilogram", 1%Z)]);
    ("t", UDeriv 1 [("metric_ton", 1%Z)]); ("tonne", UDeriv 1 [("metric_ton", 1%Z)]);
    ("second", UBase "time"); ("s", UDeriv 1 [("second", 1%Z)]);
    ("minute", UDeriv 60 [("second", 1%Z)]); ("min", UDeriv 1 [("minute", 1%Z)]);
    ("hour", UDeriv 60 [("minute", 1%Z)]); ("hr", UDeriv 1 [("hour", 1%Z)]);
    ("day", UDeriv 24 [("hour", 1%Z)]);
    ("year", UDeriv (36524219878 # 100000000) [("day", 1%Z)]) ].

(** [ScmUnitRegistry.add_standards] (units.py 253-270) without degreeC and degreeF. *)
Definition add_standards (reg : registry) (gases : list (string * gas)) : registry :=
  let reg := add_gases reg gases in
  let reg := define reg "a" (UDeriv 1 [("year", 1%Z)]) in
  let reg := add_alias reg "annum" "a" in
  let reg := add_alias reg "yr" "a" in
  let reg := add_alias reg "h" "hour" in
  let reg := add_alias reg "d" "day" in
  let reg := define reg "kt" (UDeriv 1000 [("t", 1%Z)]) in
  let reg := define reg "ppt" (UBase "concentrations") in
  let reg := define reg "ppb" (UDeriv 1000 [("ppt", 1%Z)]) in
  define reg "ppm" (UDeriv 1000 [("ppb", 1%Z)]).

(** [_unit_registry] (units.py 454-460). *)
Definition std_registry : registry := add_standards pint_defaults standard_gases.

(** The unit environment that the parameter store uses: [Units.uenv] for the standard
    registry. (units.py 454-460) *)
Definition registry_env (reg : registry) : uenv := fun s =>
  match parse_unit s with
  | None => None
  | Some e =>
    match resolve reg e with
    | None => None
    | Some (q, d) => Some (mkUdef d (Q2R q) 0%R)
    end
  end.

(** The registry that all converters use (units.py 454-460) *)
Definition std_env : uenv := registry_env std_registry.

(** * Contexts *)

(** A transformation of a context multiplies a quantity by a unit quotient and by a
    number ([None] is NaN): all transformations of units.py have this form
    (322-331, 335-351, 379-390). *)
Record transformation := mkTr
  { tr_src : dim; tr_dst : dim; tr_unit : root; tr_num : option Q }.

(** The last transformation added for a pair of dimensionalities is first and counts.
    ([pint.Context], units.py 321, 334, 393) *)
Definition context := list transformation.

(** A quantity in base units. (units.py 508-517) *)
Definition quantity := (option R * dim)%type.

(** A transformation applied to a quantity: its function (units.py 379-390) multiplies *)
Definition apply_tr (t : transformation) (x : quantity) : quantity :=
  (match fst x, tr_num t with
   | Some m, Some k => Some (m * (Q2R (fst (tr_unit t)) * Q2R k))%R
   | _, _ => None
   end,
   dim_mul 1 (snd (tr_unit t)) (snd x)).

(** The transformation between two dimensionalities ([add_transformation], units.py 322-351, 412-449) *)
Definition find_tr (c : context) (a b : dim) : option transformation :=
  find (fun t => dim_eqb (tr_src t) a && dim_eqb (tr_dst t) b) c.

(** [Context.graph]: the dimensionalities reachable in one step. (used inside [with context], units.py 515-517) *)
Definition neighbours (c : context) (a : dim) : list dim :=
  map tr_dst (filter (fun t => dim_eqb (tr_src t) a) c).

(** Membership in the path walked so far (pint, used for units.py 515-517) *)
Definition dim_in (d : dim) (l : list dim) : bool := existsb (dim_eqb d) l.

(** [pint.util.find_shortest_path]: depth-first over simple paths, the first of the
    shortest ones is kept.  [n] bounds the length of a path (pint has no bound, simple
    paths end by themselves). (used for units.py 515-517) *)
Fixpoint find_path (c : context) (n : nat) (visited : list dim) (start goal : dim)
  : option (list dim) :=
  match n with
  | O => None
  | S n' =>
    if dim_eqb start goal then Some [start]
    else
      let visited := start :: visited in
      fold_left (fun best nd =>
        if dim_in nd visited then best
        else match find_path c n' visited nd goal with
             | None => best
             | Some p =>
               match best with
               | None => Some (start :: p)
               | Some b => if (S (length p) <? length b)%nat then Some (start :: p) else best
               end
             end) (neighbours c start) None
  end.

(** The transformations along a path, one after the other (pint, used for units.py 515-517) *)
Fixpoint walk (c : context) (p : list dim) (x : quantity) : quantity :=
  match p with
  | a :: ((b :: _) as p') =>
    match find_tr c a b with
    | Some t => walk c p' (apply_tr t x)
    | None => x
    end
  | _ => x
  end.

(** [Quantity(m, u).to(v)] inside a context ([UnitRegistry._convert] of pint). (units.py 515-517) *)
Definition pint_to_ctx (c : context) (u v : root) (m : R) : res (option R) :=
  let x : quantity := (Some (m * Q2R (fst u))%R, snd u) in
  let x := match find_path c (S (length c)) [] (snd u) (snd v) with
           | Some p => walk c p x
           | None => x
           end in
  if dim_eqb (snd x) (snd v) then
    Ok (match fst x with Some y => Some (y / Q2R (fst v))%R | None => None end)
  else Err EDimensionality.

(** [getattr(registry, name)] resolved. (units.py 380-390, 395-411) *)
Definition unit_of (reg : registry) (n : string) : res root :=
  match resolve reg [(n, 1%Z)] with Some r => Ok r | None => Err EUndefinedUnit end.

(** [a / b] (units.py 379-390) *)
Definition root_div (a b : root) : root := root_mul (-1) b a.

(** The four forms of units for which metric transformations are registered
    (units.py 412-449). *)
Inductive shape := Amount | MassFlux | Mass | Flux.
(** The dimensionality that these forms have (units.py 412-449) *)
Definition shape_dim (sh : shape) (base : string) : dim :=
  match sh with
  | Amount => dim_mul 1 [(base, 1%Z)] []
  | MassFlux => dim_mul 1 [("mass", 1%Z); (base, 1%Z); ("time", (-1)%Z)] []
  | Mass => dim_mul 1 [("mass", 1%Z); (base, 1%Z)] []
  | Flux => dim_mul 1 [(base, 1%Z); ("time", (-1)%Z)] []
  end.

(** The transformations for one species: forward [strt * carbon / unit * conv]
    (382-383) and backward [strt * unit / carbon / conv] (387-388); the last one added
    first. *)
Definition both_ways (sh : shape) (base : string) (carbon unit : root) (conv : option Q)
  : list transformation :=
  [ mkTr (shape_dim sh "carbon") (shape_dim sh base) (root_div unit carbon)
      (match conv with Some k => Some (/ k)%Q | None => None end);
    mkTr (shape_dim sh base) (shape_dim sh "carbon") (root_div carbon unit) conv ].

(** Body of the loop over the species of one metric (units.py 394-449).  Python raises
    on division by zero, rationals give 0; no tabulated value is 0. *)
Definition metric_row (reg : registry) (row : string * option Q) (c : context)
  : res context :=
  let (label, val) := row in
  match unit_of reg "CO2", unit_of reg label with
  | Ok co2, Ok lab =>
    let conv := match val with
                | Some v => Some (Qred (v * fst co2 / fst lab))
                | None => None
                end in
    match snd lab with
    | [] => Err EIndexError
    | (base, _) :: _ =>
      match unit_of reg base, unit_of reg "carbon" with
      | Ok unit, Ok carbon =>
        Ok (both_ways Flux base carbon unit conv
            ++ both_ways Mass base carbon unit conv
            ++ both_ways MassFlux base carbon unit conv
            ++ both_ways Amount base carbon unit conv ++ c)
      | Err e, _ | _, Err e => Err e
      end
    end
  | Err e, _ | _, Err e => Err e
  end.

(** The loop over the species of one metric (units.py 394-449) *)
Fixpoint metric_context (reg : registry) (rows : list (string * option Q)) (c : context)
  : res context :=
  match rows with
  | [] => Ok c
  | r :: rows' =>
    match metric_row reg r c with Ok c' => metric_context reg rows' c' | Err e => Err e end
  end.

(** openscm/data/metric_conversions.csv, lines 4-89; an empty cell is NaN ([None]). *)
Definition metric_rows : list (string * list (option Q)) :=
  [ ("CH4", [Some (21 # 1); Some (25 # 1); Some (28 # 1)]);
    ("N2O", [Some (310 # 1); Some (298 # 1); Some (265 # 1)]);
    ("CFC11", [Some (3800 # 1); Some (4750 # 1); Some (4660 # 1)]);
    ("CFC12", [Some (8100 # 1); Some (10900 # 1); Some (10200 # 1)]);
    ("CFC13", [None; Some (14400 # 1); Some (13900 # 1)]);
    ("CFC113", [Some (4800 # 1); Some (6130 # 1); Some (5820 # 1)]);
    ("CFC114", [None; Some (10000 # 1); Some (8590 # 1)]);
    ("CFC115", [None; Some (7370 # 1); Some (7670 # 1)]);
    ("Halon1301", [Some (5400 # 1); Some (7140 # 1); Some (6290 # 1)]);
    ("Halon1211", [None; Some (1890 # 1); Some (1750 # 1)]);
    ("Halon2402", [None; Some (1640 # 1); Some (1470 # 1)]);
    ("Halon1202", [None; None; None]);
    ("CCl4", [Some (1400 # 1); Some (1400 # 1); Some (1730 # 1)]);
    ("CH3Br", [None; Some (5 # 1); Some (2 # 1)]);
    ("CH3CCl3", [Some (100 # 1); Some (146 # 1); Some (160 # 1)]);
    ("HCFC21", [None; None; Some (148 # 1)]);
    ("HCFC22", [Some (1500 # 1); Some (1810 # 1); Some (1760 # 1)]);
    ("HCFC123", [Some (90 # 1); Some (77 # 1); Some (79 # 1)]);
    ("HCFC124", [Some (470 # 1); Some (609 # 1); Some (527 # 1)]);
    ("HCFC141b", [Some (600 # 1); Some (725 # 1); Some (782 # 1)]);
    ("HCFC142b", [Some (1800 # 1); Some (2310 # 1); Some (1980 # 1)]);
    ("HCFC225ca", [None; Some (122 # 1); Some (127 # 1)]);
    ("HCFC225cb", [None; Some (595 # 1); Some (525 # 1)]);
    ("HFC23", [Some (11700 # 1); Some (14800 # 1); Some (12400 # 1)]);
    ("HFC32", [Some (650 # 1); Some (675 # 1); Some (677 # 1)]);
    ("HFC41", [Some (150 # 1); None; Some (116 # 1)]);
    ("HFC125", [Some (2800 # 1); Some (3500 # 1); Some (3170 # 1)]);
    ("HFC134", [Some (1000 # 1); None; Some (1120 # 1)]);
    ("HFC134a", [Some (1300 # 1); Some (1430 # 1); Some (1300 # 1)]);
    ("HFC143", [Some (300 # 1); None; Some (328 # 1)]);
    ("HFC143a", [Some (3800 # 1); Some (4470 # 1); Some (4800 # 1)]);
    ("HFC152", [None; None; Some (16 # 1)]);
    ("HFC152a", [Some (140 # 1); Some (124 # 1); Some (138 # 1)]);
    ("HFC161", [None; None; Some (4 # 1)]);
    ("HFC227ea", [Some (2900 # 1); Some (3220 # 1); Some (3350 # 1)]);
    ("HFC236cb", [None; None; Some (1210 # 1)]);
    ("HFC236ea", [None; None; Some (1330 # 1)]);
    ("HFC236fa", [Some (6300 # 1); Some (9810 # 1); Some (8060 # 1)]);
    ("HFC245ca", [Some (560 # 1); None; Some (716 # 1)]);
    ("HFC245fa", [None; Some (1030 # 1); Some (858 # 1)]);
    ("HFC365mfc", [None; Some (794 # 1); Some (804 # 1)]);
    ("HFC4310mee", [Some (1300 # 1); Some (1640 # 1); Some (1650 # 1)]);
    ("SF6", [Some (23900 # 1); Some (22800 # 1); Some (23500 # 1)]);
    ("NF3", [None; Some (17200 # 1); Some (16100 # 1)]);
    ("CF4", [Some (6500 # 1); Some (7390 # 1); Some (6630 # 1)]);
    ("C2F6", [Some (9200 # 1); Some (12200 # 1); Some (11100 # 1)]);
    ("C3F8", [Some (7000 # 1); Some (8830 # 1); Some (8900 # 1)]);
    ("cC4F8", [Some (8700 # 1); Some (10300 # 1); Some (9540 # 1)]);
    ("C4F10", [Some (7000 # 1); Some (8860 # 1); Some (9200 # 1)]);
    ("C5F12", [Some (7500 # 1); Some (9160 # 1); Some (8550 # 1)]);
    ("C6F14", [Some (7400 # 1); Some (9300 # 1); Some (7910 # 1)]);
    ("C10F18", [None; None; Some (7190 # 1)]);
    ("SF5CF3", [None; Some (17700 # 1); Some (17400 # 1)]);
    ("cC3F6", [None; None; Some (9200 # 1)]);
    ("HFE125", [Some (14900 # 1); Some (12400 # 1); None]);
    ("HFE134", [Some (6320 # 1); Some (5560 # 1); None]);
    ("HFE143a", [Some (756 # 1); Some (523 # 1); None]);
    ("HCFE235da2", [Some (350 # 1); Some (491 # 1); None]);
    ("HFE245cb2", [Some (708 # 1); Some (654 # 1); None]);
    ("HFE245fa2", [Some (659 # 1); Some (812 # 1); None]);
    ("HFE347mcc3", [Some (575 # 1); Some (530 # 1); None]);
    ("HFE347pcf2", [Some (580 # 1); Some (889 # 1); None]);
    ("HFE356pcc3", [Some (110 # 1); Some (413 # 1); None]);
    ("HFE449sl", [Some (297 # 1); Some (421 # 1); None]);
    ("HFE569sf2", [Some (59 # 1); Some (57 # 1); None]);
    ("HFE4310pccc124", [Some (1870 # 1); Some (2820 # 1); None]);
    ("HFE236ca12", [Some (2800 # 1); Some (5350 # 1); None]);
    ("HFE338pcc13", [None; Some (1500 # 1); Some (2910 # 1)]);
    ("HFE227ea", [None; None; Some (6450 # 1)]);
    ("HFE236ea2", [None; None; Some (1790 # 1)]);
    ("HFE236fa", [None; None; Some (979 # 1)]);
    ("HFE245fa1", [None; None; Some (828 # 1)]);
    ("HFE263fb2", [None; None; Some (1 # 1)]);
    ("HFE329mcc2", [None; None; Some (3070 # 1)]);
    ("HFE338mcf2", [None; None; Some (929 # 1)]);
    ("HFE347mcf2", [None; None; Some (854 # 1)]);
    ("HFE356mec3", [None; None; Some (387 # 1)]);
    ("HFE356pcf2", [None; None; Some (719 # 1)]);
    ("HFE356pcf3", [None; None; Some (446 # 1)]);
    ("HFE365mcf3", [None; None; None]);
    ("HFE374pc2", [None; None; Some (627 # 1)]);
    ("PFPMIE", [None; Some (10300 # 1); Some (9710 # 1)]);
    ("CHCl3", [Some (4 # 1); None; Some (16 # 1)]);
    ("CH2Cl2", [Some (9 # 1); Some (87 # 10); Some (9 # 1)]);
    ("CH3Cl", [None; Some (13 # 1); Some (12 # 1)]);
    ("Halon1201", [None; None; Some (376 # 1)]) ].

(** The columns, metric_conversions.csv line 2. *)
Definition metric_names : list string := ["SARGWP100"; "AR4GWP100"; "AR5GWP100"].

(** Column [i] of the table. ([metric_conversions[col]], units.py 392-399) *)
Definition metric_column (i : nat) : list (string * option Q) :=
  map (fun r => (fst r, match nth_error (snd r) i with Some v => v | None => None end))
    metric_rows.

(** The context "CH4_conversions" (units.py 321-331) and "NOx_conversions" (334-351). *)
Definition pair_context (reg : registry) (from to : string) (u v : string) (k : Q)
  : res context :=
  match unit_of reg u, unit_of reg v with
  | Ok a, Ok b =>
    Ok [ mkTr [(to, 1%Z)] [(from, 1%Z)] (root_div a b) (Some (/ k)%Q);
         mkTr [(from, 1%Z)] [(to, 1%Z)] (root_div b a) (Some k) ]
  | Err e, _ | _, Err e => Err e
  end.
(** "CH4_conversions" (units.py 321-331) *)
Definition ch4_context (reg : registry) := pair_context reg "carbon" "methane" "C" "CH4" (16 # 12).
(** "NOx_conversions" (units.py 334-351) *)
Definition nox_context (reg : registry) :=
  pair_context reg "nitrogen" "NOx" "nitrogen" "NOx" ((14 + 2 * 16) # 14).

(** Position of a metric in the header. (units.py 392-393) *)
Fixpoint index_of (n : string) (l : list string) : option nat :=
  match l with
  | [] => None
  | m :: l' =>
    if String.eqb n m then Some O
    else match index_of n l' with Some i => Some (S i) | None => None end
  end.

(** [_unit_registry.context(name)]: contexts are loaded on first use (units.py 272-280,
    317-354); an unknown name is a KeyError. *)
Definition get_context (reg : registry) (name : string) : res context :=
  if String.eqb name "CH4_conversions" then ch4_context reg
  else if String.eqb name "NOx_conversions" then nox_context reg
  else match index_of name metric_names with
       | Some i => metric_context reg (metric_column i) []
       | None => Err EKeyError
       end.

(** [UnitConverter.__init__] with a context (units.py 480-527); [None] is NaN. *)
Record nuconv := mkNuconv { nu_scaling : option R; nu_offset : option R }.

(** Arithmetic with NaN (units.py 519-527) *)
Definition olift2 (f : R -> R -> R) (a b : option R) : option R :=
  match a, b with Some x, Some y => Some (f x y) | _, _ => None end.

(** [UnitConverter(source, target, context)] (units.py 480-527) *)
Definition ctx_converter (reg : registry) (ctx : string) (source target : string)
  : res nuconv :=
  match parse_unit source, parse_unit target with
  | Some es, Some et =>
    match resolve reg es, resolve reg et with
    | Some u, Some v =>
      match get_context reg ctx with
      | Err e => Err e
      | Ok c =>
        match pint_to_ctx c u v 1, pint_to_ctx c u v (-1) with
        | Ok t1, Ok t2 =>
          let scaling := olift2 (fun x y => (x - y) / (-1 - 1))%R t2 t1 in
          let offset := olift2 (fun x s => x - s * 1)%R t1 scaling in
          Ok (mkNuconv scaling offset)
        | Err e, _ | _, Err e => Err e
        end
      end
    | _, _ => Err EUndefinedUnit
    end
  | _, _ => Err EUndefinedUnit
  end.

(** [convert_from], [convert_to] (units.py 529-559) on a converter that may hold NaN. *)
Definition nconvert_from (c : nuconv) (v : R) : option R :=
  olift2 Rplus (nu_offset c) (olift2 Rmult (Some v) (nu_scaling c)).
(** [convert_to] (units.py 545-559) *)
Definition nconvert_to (c : nuconv) (v : R) : option R :=
  olift2 Rdiv (olift2 Rminus (Some v) (nu_offset c)) (nu_scaling c).
