(** Model of lib/sia/rust/cli/src/main.rs:83-110 with the argument parser it configures: getopts 0.2 `Options::parse` (third party,
    modelled from its documented behaviour, parsing style FloatingFrees) for the three options the tool declares, main.rs:87-89.
    Arguments are byte strings (valid UTF-8, `env::args` panics otherwise); the texts of error messages are not modelled. *)
From Verif Require Import Outcome Floats Bits Encoding Matrix Signature Process Image Cli.
Open Scope Z_scope.

(** ASCII codes of the characters getopts looks for and of the names of the options, lib/sia/rust/cli/src/main.rs:87-89 *)
Definition DASH := 45. Definition EQUALS := 61.
Definition LETTER_s := 115. Definition LETTER_o := 111. Definition LETTER_h := 104.
Definition WORD_help := [104; 101; 108; 112].

(** main.rs:87-89: `optopt("s", "")`, `optopt("o", "")`, `optflag("h", "help")` *)
Inductive option_id := OptS | OptO | OptH.
(** getopts `find_opt` for a short name *)
Definition find_short (c : Z) : option option_id :=
  if c =? LETTER_s then Some OptS else if c =? LETTER_o then Some OptO else if c =? LETTER_h then Some OptH else None.
(** getopts `Name::from_str` and `find_opt`: a name of one byte is a short name, even after two dashes *)
Definition find_name (n : list Z) : option option_id :=
  match n with [c] => find_short c | _ => if bytes_eqb n WORD_help then Some OptH else None end.
(** `tail.splitn(2, '=')` *)
Fixpoint split_equals (l : list Z) : list Z * option (list Z) :=
  match l with
  | [] => ([], None)
  | c :: t => if c =? EQUALS then ([], Some t) else let '(a, b) := split_equals t in (c :: a, b)
  end.

(** what has been collected so far: values of -s and -o, occurrences of -h, free arguments *)
Record found := mkFound { vals_s : list (list Z); vals_o : list (list Z); times_h : nat; frees : list (list Z) }.
(** getopts: another free argument, another occurrence of -h, another value of -s or -o. *)
Definition add_free (f : found) (a : list Z) := mkFound (vals_s f) (vals_o f) (times_h f) (frees f ++ [a]).
Definition add_flag (f : found) := mkFound (vals_s f) (vals_o f) (S (times_h f)) (frees f).
Definition add_value (f : found) (is_s : bool) (v : list Z) :=
  if is_s then mkFound (vals_s f ++ [v]) (vals_o f) (times_h f) (frees f) else mkFound (vals_s f) (vals_o f ++ [v]) (times_h f) (frees f).

(** `for (j, ch) in cur.char_indices().skip(1)`: a row of short options.  None: unknown option; otherwise what was found, and the
    option that takes a value (true: -s) with the rest of the word, if any. *)
Fixpoint scan (f : found) (cs : list Z) : option (found * option (bool * option (list Z))) :=
  match cs with
  | [] => Some (f, None)
  | c :: t => match find_short c with
              | None => None
              | Some OptH => scan (add_flag f) t
              | Some id => Some (f, Some (match id with OptS => true | _ => false end, match t with [] => None | _ => Some t end))
              end
  end.

(** `while let Some(cur) = args.next()`; None: `Err(..)` *)
Fixpoint collect (f : found) (args : list (list Z)) : option found :=
  match args with
  | [] => Some f
  | cur :: rest =>
      match cur with
      | c0 :: c1 :: more =>
          if c0 =? DASH then
            if c1 =? DASH then
              match more with
              | [] => Some (mkFound (vals_s f) (vals_o f) (times_h f) (frees f ++ rest))     (* "--" *)
              | _ => let '(name, given) := split_equals more in
                     match find_name name, given with
                     | None, _ => None
                     | Some OptH, Some _ => None
                     | Some OptH, None => collect (add_flag f) rest
                     | Some id, Some v => collect (add_value f (match id with OptS => true | _ => false end) v) rest
                     | Some id, None => match rest with
                                        | [] => None
                                        | v :: rest' => collect (add_value f (match id with OptS => true | _ => false end) v) rest'
                                        end
                     end
              end
            else match scan f (c1 :: more) with
                 | None => None
                 | Some (f', None) => collect f' rest
                 | Some (f', Some (is_s, Some v)) => collect (add_value f' is_s v) rest
                 | Some (f', Some (is_s, None)) => match rest with [] => None | v :: rest' => collect (add_value f' is_s v) rest' end
                 end
          else collect (add_free f cur) rest
      | _ => collect (add_free f cur) rest          (* `is_arg` wants a dash and something after it *)
      end
  end.

(** the end of `parse`: a repeated option is an error; then `opt_present("h")`, `opt_str("s")`, `opt_str("o")`, `free` *)
Definition parse (args : list (list Z)) : option matches :=
  match collect (mkFound [] [] 0 []) args with
  | None => None
  | Some f => if Nat.ltb 1 (length (vals_s f)) || Nat.ltb 1 (length (vals_o f)) || Nat.ltb 1 (times_h f) then None
              else Some (mkMatches (Nat.eqb (times_h f) 1) (hd_error (vals_s f)) (hd_error (vals_o f)) (frees f))
  end.

Section Run.
Context {F : Type} (O : FOps F) (K : ldpc) (E : ed25519) (equalize : list Z -> list Z)
  (features_of : array2 Z -> nat -> outcome (list F)) (checks : bool) (pad : list bool).
Context {format : Type} (os : platform format).
(** main.rs:83-110: the whole program; [argv] with the program name first, `args[0]` *)
Definition run (w : world) (argv : list (list Z)) : world * ending :=
  match argv with
  | [] => (w, Panicked SliceRange)
  | _ :: args => main O K E equalize features_of checks pad os w (parse args)
  end.
End Run.
