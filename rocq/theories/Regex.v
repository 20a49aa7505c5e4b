(** Python's [re] as used by openscm/scmdataframe/filters.py 98-102, 171-184 and
    openscm/scmdataframe/parameter_type.py 13-23: the syntax of patterns and whether
    [pattern.match(s)] finds a match.

    Modelled: literals, [.], classes, escapes of punctuation and [\d \w \s \D \W \S],
    groups [( )] and [(?: )], alternation, the quantifiers with their lazy forms, and the
    anchors [^] and [$] without flags.  All other syntax, and all patterns that [re.compile]
    rejects, are [None].  Which match is found (greedy or lazy) is not modelled, only whether
    there is one.  Strings are sequences of 8-bit characters. *)
From Coq Require Import String Ascii List Arith Bool.
Import ListNotations.
Local Open Scope string_scope.
Local Open Scope list_scope.

(** Patterns (filters.py 172-184, parameter_type.py 13-23) *)
Inductive re : Type :=
| REps
| RFail
| RAny                                            (* any character but a newline *)
| RSet (neg : bool) (ranges : list (ascii * ascii)) (* one character (not) in a class *)
| RBol                                            (* ^ *)
| REol                                            (* $ *)
| RSeq (a b : re)
| RAlt (a b : re)
| RStar (a : re).

(** The character that [.] does not match (filters.py 172-184) *)
Definition newline : ascii := "010".
(** A literal character (filters.py 172-184) *)
Definition RChr (c : ascii) : re := RSet false [(c, c)].

(** ** Matching *)

(** Membership in a range of a class (filters.py 172-184) *)
Definition in_range (c : ascii) (r : ascii * ascii) : bool :=
  (nat_of_ascii (fst r) <=? nat_of_ascii c)%nat && (nat_of_ascii c <=? nat_of_ascii (snd r))%nat.
(** Membership in a class (filters.py 172-184) *)
Definition in_set (c : ascii) (rs : list (ascii * ascii)) : bool := existsb (in_range c) rs.

(** The ends of matches of [r] that start where the rest of the subject is [s]; the subject has
    length [n]. (filters.py 184-195, parameter_type.py 66-71) *)
Fixpoint rests (r : re) (n : nat) (s : string) : list string :=
  match r with
  | REps => [s]
  | RFail => []
  | RAny => match s with
            | EmptyString => []
            | String c s' => if Ascii.eqb c newline then [] else [s']
            end
  | RSet neg rs => match s with
                   | EmptyString => []
                   | String c s' => if xorb neg (in_set c rs) then [s'] else []
                   end
  | RBol => if (String.length s =? n)%nat then [s] else []
  | REol => if String.eqb s "" || String.eqb s (String newline "") then [s] else []
  | RSeq a b => flat_map (rests b n) (rests a n s)
  | RAlt a b => rests a n s ++ rests b n s
  | RStar a =>
    (fix star (fuel : nat) (s : string) : list string :=
       s :: match fuel with
            | O => []
            | S fuel' =>
              flat_map (fun s' => if (String.length s' <? String.length s)%nat then star fuel' s' else [])
                       (rests a n s)
            end) (String.length s) s
  end.

(** [pattern.match(s)] is a match. (filters.py 184-195, parameter_type.py 66-71) *)
Definition re_match (r : re) (s : string) : bool :=
  match rests r (String.length s) s with [] => false | _ => true end.

(** ** Syntax *)

(** The value of a digit (filters.py 77-95, 172-184) *)
Definition digit (c : ascii) : option nat :=
  let n := nat_of_ascii c in
  if (48 <=? n)%nat && (n <=? 57)%nat then Some (n - 48)%nat else None.
(** The class [\d] (filters.py 172-184) *)
Definition digits : list (ascii * ascii) := [("0", "9")]%char.
(** The class [\w] (filters.py 172-184) *)
Definition word : list (ascii * ascii) := [("a", "z"); ("A", "Z"); ("0", "9"); ("_", "_")]%char.
(** The class [\s] (filters.py 172-184) *)
Definition space : list (ascii * ascii) := [(" ", " "); ("009", "013")]%char.

(** An escaped letter or digit is special or an error; any other escaped character is itself. (filters.py 172-184) *)
Definition is_alnum (c : ascii) : bool := in_set c [("a", "z"); ("A", "Z"); ("0", "9")]%char.
(** What an escape stands for (filters.py 172-184) *)
Definition class_escape (c : ascii) : option (bool * list (ascii * ascii)) :=
  match c with
  | "d" => Some (false, digits) | "D" => Some (true, digits)
  | "w" => Some (false, word) | "W" => Some (true, word)
  | "s" => Some (false, space) | "S" => Some (true, space)
  | "n" => Some (false, [(newline, newline)])
  | "t" => Some (false, [("009", "009")])
  | _ => if is_alnum c then None else Some (false, [(c, c)])
  end%char.

(** A natural number: the value and the rest. (filters.py 172-184) *)
Fixpoint number (acc : nat) (s : string) : nat * string :=
  match s with
  | String c s' => match digit c with Some d => number (10 * acc + d) s' | None => (acc, s) end
  | EmptyString => (acc, s)
  end.
(** Whether a text starts with a digit (filters.py 172-184) *)
Definition is_digit (s : string) : bool :=
  match s with String c _ => match digit c with Some _ => true | None => false end | _ => false end.

(** A quantifier: minimum, maximum and the rest.  An opening brace that does not start a
    quantifier is a literal. (filters.py 172-184) *)
Definition quantifier (s : string) : option (nat * option nat * string) :=
  match s with
  | String "*" s' => Some (0, None, s')
  | String "+" s' => Some (1, None, s')
  | String "?" s' => Some (0, Some 1, s')
  | String "{" s' =>
    let (lo, s1) := number 0 s' in
    match s1 with
    | String "}" s2 => if is_digit s' then Some (lo, Some lo, s2) else None
    | String "," s2 =>
      let (hi, s3) := number 0 s2 in
      match s3 with
      | String "}" s4 => Some (lo, if is_digit s2 then Some hi else None, s4)
      | _ => None
      end
    | _ => None
    end
  | _ => None
  end%char.

(** Exactly [n] times (filters.py 172-184) *)
Fixpoint times (n : nat) (r : re) : re := match n with O => REps | S n' => RSeq r (times n' r) end.
(** At most [n] times (filters.py 172-184) *)
Fixpoint up_to (n : nat) (r : re) : re := match n with O => REps | S n' => RAlt REps (RSeq r (up_to n' r)) end.
(** A quantified pattern (filters.py 172-184) *)
Definition repeat_re (r : re) (lo : nat) (hi : option nat) : re :=
  RSeq (times lo r) (match hi with None => RStar r | Some hi => up_to (hi - lo) r end).

(** The inside of a class up to the closing bracket; [first]: a closing bracket is a literal. (filters.py 172-184) *)
Fixpoint class_items (fuel : nat) (first : bool) (s : string) : option (list (ascii * ascii) * string) :=
  match fuel with
  | O => None
  | S fuel' =>
    let cont lo hi rest :=
      match class_items fuel' false rest with
      | Some (rs, rest') => Some ((lo, hi) :: rs, rest')
      | None => None
      end in
    match s with
    | EmptyString => None
    | String "]" s' => if first then cont "]" "]" s' else Some ([], s')
    | String "\" (String c s') =>
      match class_escape c with
      | Some (false, rs) =>
        match class_items fuel' false s' with
        | Some (rs', rest') => Some (rs ++ rs', rest')
        | None => None
        end
      | _ => None
      end
    | String "\" EmptyString => None
    | String lo (String "-" (String hi s')) =>
      if Ascii.eqb hi "]" then cont lo lo (String "-" (String hi s'))
      else if Ascii.eqb hi "\" then None
      else if (nat_of_ascii lo <=? nat_of_ascii hi)%nat then cont lo hi s' else None
    | String c s' => cont c c s'
    end
  end%char.

(** One alternation, up to the end or a closing parenthesis.  [parse_seq] parses a
    concatenation. (filters.py 172-184) *)
Fixpoint parse_alt (fuel : nat) (s : string) : option (re * string) :=
  match fuel with
  | O => None
  | S fuel' =>
    match parse_seq fuel' s with
    | Some (r, String "|" s') =>
      match parse_alt fuel' s' with Some (r', s'') => Some (RAlt r r', s'') | None => None end
    | x => x
    end
  end%char
with parse_seq (fuel : nat) (s : string) : option (re * string) :=
  match fuel with
  | O => None
  | S fuel' =>
    (* what follows an atom: at most one quantifier, which may be lazy; then the rest *)
    let after (anchor : bool) (atom : re) (rest : string) :=
      match quantifier rest with
      | Some (lo, hi, rest') =>
        if anchor then None else
        if match hi with Some h => (h <? lo)%nat | None => false end then None else
        let rest'' := match rest' with String "?" x => x | _ => rest' end in
        match quantifier rest'' with
        | Some _ => None
        | None => match parse_seq fuel' rest'' with
                  | Some (r, x) => Some (RSeq (repeat_re atom lo hi) r, x)
                  | None => None
                  end
        end
      | None => match parse_seq fuel' rest with
                | Some (r, x) => Some (RSeq atom r, x)
                | None => None
                end
      end in
    match s with
    | EmptyString => Some (REps, s)
    | String c s' =>
      match c with
      | "|" | ")" => Some (REps, s)
      | "*" | "+" | "?" => None
      | "." => after false RAny s'
      | "^" => after true RBol s'
      | "$" => after true REol s'
      | "(" =>
        let s1 := match s' with
                  | String "?" (String ":" x) => Some x
                  | String "?" _ => None
                  | _ => Some s'
                  end in
        match s1 with
        | None => None
        | Some s1 =>
          match parse_alt fuel' s1 with
          | Some (r, String ")" rest) => after false r rest
          | _ => None
          end
        end
      | "[" =>
        let (neg, s1) := match s' with String "^" x => (true, x) | _ => (false, s') end in
        match class_items fuel' true s1 with
        | Some (rs, rest) => after false (RSet neg rs) rest
        | None => None
        end
      | "\" =>
        match s' with
        | EmptyString => None
        | String e rest =>
          match class_escape e with
          | Some (neg, rs) => after false (RSet neg rs) rest
          | None => None
          end
        end
      | _ => match quantifier s with
             | Some _ => None
             | None => after false (RChr c) s'
             end
      end
    end
  end%char.

(** [re.compile] (filters.py 172-182, parameter_type.py 13-23) *)
Definition re_compile (p : string) : option re :=
  match parse_alt (S (S (2 * String.length p))) p with
  | Some (r, EmptyString) => Some r
  | _ => None
  end.

(** [re.compile(p).match(s)] (filters.py 172-195) *)
Definition compiled_match (p s : string) : option bool :=
  match re_compile p with Some r => Some (re_match r s) | None => None end.

(** Tests of the parser. *)
Example re1 : compiled_match "ab?c$" "ac" = Some true. Proof. reflexivity. Qed.
Example re2 : compiled_match "(ab|c)*d$" "ababcd" = Some true. Proof. reflexivity. Qed.
Example re3 : compiled_match "[^a-c]x{2,3}$" "dxxx" = Some true. Proof. reflexivity. Qed.
Example re4 : compiled_match "[^a-c]x{2,3}$" "dxxxx" = Some false. Proof. reflexivity. Qed.
Example re5 : compiled_match "a{b" "a{b" = Some true. Proof. reflexivity. Qed.
Example re6 : compiled_match "a**" "a" = None. Proof. reflexivity. Qed.
Example re7 : compiled_match ".*_(GWP)?EMIS" "CO2_GWPEMIS" = Some true. Proof. reflexivity. Qed.
Example re8 : compiled_match "a$" (String "a" (String newline "")) = Some true. Proof. reflexivity. Qed.
Example re9 : compiled_match "(a" "a" = None. Proof. reflexivity. Qed.
Example re10 : compiled_match "^b" "ab" = Some false. Proof. reflexivity. Qed.
