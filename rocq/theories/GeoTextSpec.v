(** Specification for C111: how Gmsh reads the .geo file.

    [read_geo] reads the part of Gmsh's language that is needed: Merge, the assignment of a number to a name, physical
    groups and characteristic lengths at the points of volumes, surfaces, lines; comments and white space are skipped. *)

From Coq Require Import ZArith NArith List String Ascii DecimalString DecimalN Bool Reals.
Import ListNotations.
Local Open Scope string_scope.

Inductive command :=
| Merge (file : string)
| Assign (name value : string)
| Group (dim : nat) (tag : N) (members : list N)
| LengthAt (dim : nat) (members : list N) (size : string).

(** * Tokens: words, quoted strings and punctuation *)
Inductive token := Word (s : string) | Quoted (s : string) | Punct (c : ascii).
Definition is_digit (c : ascii) : bool := let n := N_of_ascii c in ((48 <=? n) && (n <=? 57))%N.
Definition word_char (c : ascii) : bool :=
  let n := N_of_ascii c in
  (is_digit c || ((65 <=? n) && (n <=? 90)) || ((97 <=? n) && (n <=? 122)) || (n =? 95) || (n =? 46) || (n =? 43) || (n =? 45))%N.
Definition is_space (c : ascii) : bool := let n := N_of_ascii c in ((n =? 32) || (n =? 10))%N.
Definition is_quote (c : ascii) : bool := (N_of_ascii c =? 34)%N.
Definition is_slash (c : ascii) : bool := (N_of_ascii c =? 47)%N.
Definition is_newline (c : ascii) : bool := (N_of_ascii c =? 10)%N.
Inductive mode := InWord (w : string) | InQuotes (w : string) | InComment.
Definition flush (w : string) : list token := match w with "" => [] | _ => [Word w] end.
Definition slash_next (s : string) : bool := match s with String c _ => is_slash c | "" => false end.
Fixpoint lex (m : mode) (s : string) : list token :=
  match s with
  | "" => match m with InWord w => flush w | InQuotes w => [Quoted w] | InComment => [] end
  | String c s =>
      match m with
      | InComment => if is_newline c then lex (InWord "") s else lex InComment s
      | InQuotes w => if is_quote c then Quoted w :: lex (InWord "") s else lex (InQuotes (w ++ String c "")) s
      | InWord w =>
          if word_char c then lex (InWord (w ++ String c "")) s
          else (flush w ++
                if is_space c then lex (InWord "") s
                else if is_quote c then lex (InQuotes "") s
                else if is_slash c && slash_next s then lex InComment s
                else Punct c :: lex (InWord "") s)%list
      end
  end.

(** * Commands *)
Definition read_N (s : string) : option N := option_map N.of_uint (NilZero.uint_of_string s).
Definition kind_dim (s : string) : option nat :=
  if s =? "Volume" then Some 3 else if s =? "Surface" then Some 2 else if s =? "Line" then Some 1 else if s =? "Point" then Some 0 else None.
(** the members up to the closing brace *)
Fixpoint read_members (ts : list token) : option (list N * list token) :=
  match ts with
  | Word w :: Punct c :: r =>
      match read_N w with
      | None => None
      | Some n =>
          if Ascii.eqb c "," then match read_members r with Some (l, r) => Some (n :: l, r) | None => None end
          else if Ascii.eqb c "}" then Some ([n], r) else None
      end
  | _ => None
  end.
(** the tokens after the expected punctuation *)
Fixpoint expect (cs : string) (ts : list token) : option (list token) :=
  match cs with
  | "" => Some ts
  | String c cs => match ts with Punct d :: ts => if Ascii.eqb c d then expect cs ts else None | _ => None end
  end.
Definition bind {A B} (x : option A) (f : A -> option B) : option B := match x with Some a => f a | None => None end.
Definition word (ts : list token) : option (string * list token) := match ts with Word w :: r => Some (w, r) | _ => None end.
Definition keyword (k : string) (ts : list token) : option (list token) :=
  bind (word ts) (fun '(w, r) => if w =? k then Some r else None).
Definition read_merge (ts : list token) : option (command * list token) :=
  match ts with Quoted f :: r => bind (expect ";" r) (fun r => Some (Merge f, r)) | _ => None end.
Definition read_group (ts : list token) : option (command * list token) :=
  bind (word ts) (fun '(k, r) => bind (kind_dim k) (fun d =>
  bind (expect "(" r) (fun r => bind (word r) (fun '(t, r) => bind (read_N t) (fun t =>
  bind (expect ")={" r) (fun r => bind (read_members r) (fun '(l, r) =>
  bind (expect ";" r) (fun r => Some (Group d t l, r))))))))).
Definition read_length (ts : list token) : option (command * list token) :=
  bind (keyword "Length" ts) (fun r => bind (expect "{" r) (fun r =>
  bind (keyword "PointsOf" r) (fun r => bind (expect "{" r) (fun r =>
  bind (word r) (fun '(k, r) => bind (kind_dim k) (fun d => bind (expect "{" r) (fun r =>
  bind (read_members r) (fun '(l, r) => bind (expect ";}}=" r) (fun r =>
  bind (word r) (fun '(s, r) => bind (expect ";" r) (fun r => Some (LengthAt d l s, r)))))))))))).
Definition read_assign (name : string) (ts : list token) : option (command * list token) :=
  bind (expect "=" ts) (fun r => bind (word r) (fun '(v, r) => bind (expect ";" r) (fun r => Some (Assign name v, r)))).
Definition read_command (ts : list token) : option (command * list token) :=
  bind (word ts) (fun '(w, r) =>
    if w =? "Merge" then read_merge r
    else if w =? "Physical" then read_group r
    else if w =? "Characteristic" then read_length r
    else read_assign w r).
Fixpoint read_commands (fuel : nat) (ts : list token) : option (list command) :=
  match ts, fuel with
  | [], _ => Some []
  | _, O => None
  | _, S fuel => bind (read_command ts) (fun '(c, r) => option_map (cons c) (read_commands fuel r))
  end.
Definition read_geo (s : string) : option (list command) :=
  let ts := lex (InWord "") s in read_commands (List.length ts) ts.

(** the commands for a list of groups: tags and members *)
Definition commands_of (dim : nat) (size : option string) (l : list (N * list N)) : list command :=
  flat_map (fun '(tag, ms) => Group dim tag ms :: match size with Some s => [LengthAt dim ms s] | None => [] end) l.
Definition filled (l : list (N * list N)) : Prop := Forall (fun p => snd p <> []) l.

(** * Files: a relative name after Merge is relative to the directory of the .geo file *)
Fixpoint directory (path : string) : string :=
  match path with
  | "" => ""
  | String c rest => match directory rest with
                     | "" => if is_slash c then "/" else ""
                     | d => String c d
                     end
  end.
Definition merged_file (geo target : string) : string :=
  match target with String c _ => if is_slash c then target else directory geo ++ target | "" => "" end.
Fixpoint has (test : ascii -> bool) (s : string) : bool := match s with "" => false | String c s => test c || has test s end.

(** * Numbers: the digits z and the exponent k of a decimal number z 10^k *)
Fixpoint read_digits (s : string) (z : Z) : option Z :=
  match s with
  | "" => Some z
  | String c s => if is_digit c then read_digits s (10 * z + Z.of_N (N_of_ascii c - 48)) else None
  end.
Fixpoint split_at (c : ascii) (s : string) : string * option string :=
  match s with
  | "" => ("", None)
  | String d s => if Ascii.eqb c d then ("", Some s) else let '(a, b) := split_at c s in (String d a, b)
  end.
Definition read_exp (s : string) : option Z :=
  match s with
  | String c s => if Ascii.eqb c "-" then option_map Z.opp (read_digits s 0) else if Ascii.eqb c "+" then read_digits s 0 else None
  | "" => None
  end.
Definition read_unsigned (s : string) : option (Z * Z) :=
  let '(mant, ex) := split_at "e" s in
  let '(whole, frac) := split_at "." mant in
  bind (match ex with None => Some 0%Z | Some x => read_exp x end) (fun k =>
  match frac with
  | None => bind (read_digits whole 0) (fun z => Some (z, k))
  | Some f => bind (read_digits (whole ++ f) 0) (fun z => Some (z, (k - Z.of_nat (String.length f))%Z))
  end).
Definition read_decimal (s : string) : option (Z * Z) :=
  match s with
  | String c r => if Ascii.eqb c "-" then option_map (fun '(z, k) => (- z, k)%Z) (read_unsigned r) else read_unsigned s
  | "" => None
  end.
(** the number that a text denotes *)
Definition denotes (s : string) (x : R) : Prop := exists z k, read_decimal s = Some (z, k) /\ x = (IZR z * powerRZ 10 k)%R.
