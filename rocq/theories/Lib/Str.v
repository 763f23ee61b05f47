(** Python string primitives on Coq [string]s: order, split/join, [in], [replace],
    and the [fnmatch] module (CPython Lib/fnmatch.py: '*', '?', '[seq]', '[!seq]'). *)
From Verif Require Import Lib.Base.
Local Open Scope string_scope.

(** a <= b in Python's code-point order. *)
Definition str_le (a b : string) : bool := String.leb a b.
Definition str_lt (a b : string) : bool := String.ltb a b.

Definition cat (l : list string) : string := fold_right String.append "" l.

(** [sep.join(l)] *)
Fixpoint join (sep : string) (l : list string) : string :=
  match l with
  | [] => ""
  | [x] => x
  | x :: r => x ++ sep ++ join sep r
  end.

(** [s.split(c)] for a one-character separator: never empty. *)
Fixpoint split_on (c : ascii) (s : string) : list string :=
  match s with
  | EmptyString => [""]
  | String a r =>
      if Ascii.eqb a c then "" :: split_on c r
      else match split_on c r with
           | [] => [String a ""]        (* unreachable: split_on is never empty *)
           | h :: t => String a h :: t
           end
  end.

(** [c in s] for a single character *)
Fixpoint has_char (c : ascii) (s : string) : bool :=
  match s with
  | EmptyString => false
  | String a r => Ascii.eqb a c || has_char c r
  end.

(** [s.startswith(p)] *)
Fixpoint is_prefix (p s : string) : bool :=
  match p, s with
  | EmptyString, _ => true
  | String a p', String b s' => Ascii.eqb a b && is_prefix p' s'
  | String _ _, EmptyString => false
  end.

(** [p in s] *)
Fixpoint is_substr (p s : string) : bool :=
  is_prefix p s || match s with EmptyString => false | String _ r => is_substr p r end.

(** last character, [s[-1]]: None is IndexError *)
Fixpoint last_char (s : string) : option ascii :=
  match s with
  | EmptyString => None
  | String a EmptyString => Some a
  | String _ r => last_char r
  end.

(** all but the last character, [s[:-1]] *)
Fixpoint but_last (s : string) : string :=
  match s with
  | EmptyString => ""
  | String _ EmptyString => ""
  | String a r => String a (but_last r)
  end.

(** replace every occurrence of character a by character b *)
Fixpoint replace_char (a b : ascii) (s : string) : string :=
  match s with
  | EmptyString => ""
  | String c r => String (if Ascii.eqb c a then b else c) (replace_char a b r)
  end.

(** [s.replace('/*', '*')]: left-to-right, non overlapping *)
Fixpoint replace_slash_star (s : string) : string :=
  match s with
  | EmptyString => ""
  | String c r =>
      if Ascii.eqb c "/"%char then
        match r with
        | String d r' => if Ascii.eqb d "*"%char then String "*" (replace_slash_star r')
                         else String c (replace_slash_star r)
        | EmptyString => String c ""
        end
      else String c (replace_slash_star r)
  end.

(** ** fnmatch *)
Inductive tok :=
| TStar | TAny | TLit (c : ascii) | TSet (neg : bool) (rs : list (ascii * ascii)).

(** index of the closing bracket of a set: content before it, rest after it *)
Fixpoint find_close (s : string) : option (string * string) :=
  match s with
  | EmptyString => None
  | String c r =>
      if Ascii.eqb c "]"%char then Some ("", r)
      else match find_close r with
           | Some (a, b) => Some (String c a, b)
           | None => None
           end
  end.

(** ranges of a set body: "a-z" or single characters *)
Fixpoint set_ranges (s : string) : list (ascii * ascii) :=
  match s with
  | EmptyString => []
  | String a r =>
      match r with
      | String d r1 =>
          if Ascii.eqb d "-"%char then
            match r1 with
            | String b r' => (a, b) :: set_ranges r'
            | EmptyString => [(a, a); (d, d)]
            end
          else (a, a) :: set_ranges r
      | EmptyString => [(a, a)]
      end
  end.

Fixpoint parse_pat (fuel : nat) (p : string) : list tok :=
  match fuel with
  | O => []
  | S fuel' =>
      match p with
      | EmptyString => []
      | String c r =>
          if Ascii.eqb c "*"%char then TStar :: parse_pat fuel' r
          else if Ascii.eqb c "?"%char then TAny :: parse_pat fuel' r
          else if Ascii.eqb c "["%char then
            let '(neg, r1) := match r with
                              | String d r' => if Ascii.eqb d "!"%char then (true, r') else (false, r)
                              | EmptyString => (false, r)
                              end in
            (* a ']' directly after '[' or '[!' is literal *)
            let '(pre, r2) := match r1 with
                              | String d r' => if Ascii.eqb d "]"%char then ("]", r') else ("", r1)
                              | EmptyString => ("", r1)
                              end in
            match find_close r2 with
            | None => TLit c :: parse_pat fuel' r          (* no closing bracket: literal '[' *)
            | Some (body, rest) => TSet neg (set_ranges (pre ++ body)) :: parse_pat fuel' rest
            end
          else TLit c :: parse_pat fuel' r
      end
  end.

Definition in_range (c : ascii) (r : ascii * ascii) : bool :=
  (N_of_ascii (fst r) <=? N_of_ascii c)%N && (N_of_ascii c <=? N_of_ascii (snd r))%N.

Fixpoint tmatch (ts : list tok) (s : string) {struct ts} : bool :=
  match ts with
  | [] => match s with EmptyString => true | _ => false end
  | TStar :: ts' =>
      (fix star (s : string) : bool :=
         tmatch ts' s || match s with EmptyString => false | String _ s' => star s' end) s
  | TAny :: ts' => match s with EmptyString => false | String _ s' => tmatch ts' s' end
  | TLit c :: ts' => match s with EmptyString => false | String a s' => Ascii.eqb a c && tmatch ts' s' end
  | TSet neg rs :: ts' =>
      match s with
      | EmptyString => false
      | String a s' => xorb neg (existsb (in_range a) rs) && tmatch ts' s'
      end
  end.

(** [fnmatch.fnmatch(name, pat)] (POSIX: normcase is the identity) *)
Definition fnmatch (name pat : string) : bool := tmatch (parse_pat (String.length pat) pat) name.

(** [fnmatch.filter(names, pat)] *)
Definition fnfilter (names : list string) (pat : string) : list string :=
  filter (fun n => fnmatch n pat) names.

(** A string without fnmatch metacharacters. *)
Fixpoint plain (s : string) : bool :=
  match s with
  | EmptyString => true
  | String c r => negb (Ascii.eqb c "*"%char || Ascii.eqb c "?"%char || Ascii.eqb c "["%char) && plain r
  end.
