(** * Go runtime pieces used by protoast: outcomes, byte strings, strconv, sort/slices, paths.

    Nothing in this file is code of /repo itself: these are the parts of the Go standard
    library the repository calls, modelled from their documentation.  Go strings are byte
    sequences and Coq's [string] is a sequence of 8-bit characters. *)
From Coq Require Export ZArith NArith Ascii.
From Coq Require String.
From Coq Require Import DecimalString.
From stdpp Require Export base gmap strings list countable.

Open Scope string_scope.

(** ** Errors: package errors, fmt.Errorf and internal/errors of /repo *)

(** A Go error value:
    - [ENew text]: errors.New (internal/errors/new.go:10-19, New and Newf), a value of its own;
    - [EForeign text matches]: an error made by another package (os, the parser, a resolver of the
      client) with its text; [matches] names the sentinel errors for which errors.Is holds;
    - [EWrap msg inner]: fmt.Errorf("%s: %w", msg, inner) (internal/errors/wrap.go:5-15, Wrap and
      Wrapf; the nil check of lines 7 and 13 never fires in the modelled code). *)
Inductive error :=
| ENew (text : string)
| EForeign (text : string) (matches : list string)
| EWrap (msg : string) (inner : error).
Coercion ENew : string >-> error.

(** err.Error() *)
Fixpoint error_text (e : error) : string :=
  match e with
  | ENew text => text
  | EForeign text _ => text
  | EWrap msg inner => msg +:+ ": " +:+ error_text inner
  end.

(** errors.Is(err, target) (internal/errors/is.go:7-9) for a sentinel of another package, given by
    its name *)
Fixpoint error_is (target : string) (e : error) : bool :=
  match e with
  | ENew _ => false
  | EForeign _ matches => bool_decide (target ∈ matches)
  | EWrap _ inner => error_is target inner
  end.

(** os.ErrNotExist *)
Definition err_not_exist : string := "os.ErrNotExist".

(** A value given to panic: an error (the code's own or a run-time error of Go), or a string. *)
Inductive payload :=
| PText (msg : string)
| PError (e : error).
Coercion PText : string >-> payload.

(** Result of running a Go function: normal return, panic, or (for functions the model runs on
    fuel) not finished within the fuel. *)
Inductive outcome (A : Type) : Type :=
| Ret (a : A)
| Panic (msg : payload)
| Diverge.
Arguments Ret {A} a.
Arguments Panic {A} msg.
Arguments Diverge {A}.

(** ** package strings *)

(** strings.HasPrefix(s, p) *)
Definition has_prefix (s p : string) : bool := String.prefix p s.

(** strings.LastIndex(s, c) for a one byte needle; [None] is Go's -1. *)
Fixpoint last_index (c : ascii) (s : string) : option nat :=
  match s with
  | EmptyString => None
  | String x r =>
      match last_index c r with
      | Some i => Some (S i)
      | None => if Ascii.eqb x c then Some 0 else None
      end
  end.

(** strings.IndexByte(s, c); [None] is Go's -1. *)
Fixpoint index_byte (c : ascii) (s : string) : option nat :=
  match s with
  | EmptyString => None
  | String x r =>
      if Ascii.eqb x c then Some 0
      else match index_byte c r with Some i => Some (S i) | None => None end
  end.

(** s[:n] *)
Fixpoint str_take (n : nat) (s : string) : string :=
  match n, s with
  | S n', String x r => String x (str_take n' r)
  | _, _ => EmptyString
  end.

(** s[n:] *)
Fixpoint str_drop (n : nat) (s : string) : string :=
  match n, s with
  | O, _ => s
  | S n', String _ r => str_drop n' r
  | S _, EmptyString => EmptyString
  end.

(** strings.NewReplacer("(", "", ")", "").Replace(s): deletes both parentheses. *)
Fixpoint strip_parens (s : string) : string :=
  match s with
  | EmptyString => EmptyString
  | String x r =>
      if Ascii.eqb x "("%char || Ascii.eqb x ")"%char then strip_parens r
      else String x (strip_parens r)
  end.

(** strings.TrimSuffix(s, c) for a one byte suffix. *)
Definition trim_suffix (c : ascii) (s : string) : string :=
  match last_index c s with
  | Some i => if Nat.eqb (S i) (String.length s) then str_take i s else s
  | None => s
  end.

(** ** package strconv *)

Definition digit_val (c : ascii) : option N :=
  let n := N_of_ascii c in
  if (48 <=? n)%N && (n <=? 57)%N then Some (n - 48)%N else None.

(** value of a digit string, most significant digit first *)
Fixpoint digits_val (acc : N) (s : string) : option N :=
  match s with
  | EmptyString => Some acc
  | String c r =>
      match digit_val c with
      | Some d => digits_val (10 * acc + d)%N r
      | None => None
      end
  end.

(** strconv.ParseUint(s, 10, 64); [None] is a non-nil error. *)
Definition parse_uint (s : string) : option N :=
  match s with
  | EmptyString => None
  | _ => match digits_val 0 s with
         | Some n => if (n <? 2 ^ 64)%N then Some n else None
         | None => None
         end
  end.

(** strconv.Atoi(s) with 64-bit int; [None] is a non-nil error. *)
Definition atoi (s : string) : option Z :=
  let '(neg, body) :=
    match s with
    | String "-"%char r => (true, r)
    | String "+"%char r => (false, r)
    | _ => (false, s)
    end in
  match parse_uint body with
  | Some n =>
      if neg then (if (n <=? 2 ^ 63)%N then Some (- Z.of_N n)%Z else None)
      else (if (n <? 2 ^ 63)%N then Some (Z.of_N n) else None)
  | None => None
  end.

(** strconv.ParseBool(s); [None] is a non-nil error. *)
Definition parse_bool (s : string) : option bool :=
  if bool_decide (s ∈ ["1"; "t"; "T"; "TRUE"; "true"; "True"]) then Some true
  else if bool_decide (s ∈ ["0"; "f"; "F"; "FALSE"; "false"; "False"]) then Some false
  else None.

(** strconv.Quote, %q of fmt for a string.  Simplification: bytes from 128 on are copied (Go escapes
    invalid UTF-8 and characters that are not printable, by tables of Unicode). *)
Definition hex_digit (n : nat) : ascii := Ascii.ascii_of_nat (if (n <? 10)%nat then 48 + n else 87 + n).
Definition quote_char (c : ascii) : string :=
  let n := Ascii.nat_of_ascii c in
  let esc x := String "\" (String x "") in
  if Ascii.eqb c """" || Ascii.eqb c "\" then esc c
  else if ((32 <=? n) && (n <? 127) || (128 <=? n))%nat then String c ""
  else match n with
       | 7 => esc "a" | 8 => esc "b" | 9 => esc "t" | 10 => esc "n"
       | 11 => esc "v" | 12 => esc "f" | 13 => esc "r"
       | _ => "\x" +:+ String (hex_digit (n / 16)) (String (hex_digit (n mod 16)) "")
       end%char.
Fixpoint quote_body (s : string) : string :=
  match s with
  | "" => ""
  | String c s' => quote_char c +:+ quote_body s'
  end.
Definition quote (s : string) : string := """" +:+ quote_body s +:+ """".

(** Why strconv.ParseUint(s, 10, 64) fails, if it does: it reads digit by digit and stops at the first
    byte that is not a digit (ErrSyntax) or at the digit that makes the number exceed 64 bits
    (ErrRange). *)
Inductive fault := FSyntax | FRange.
Fixpoint digits_fault (acc : N) (s : string) : option fault :=
  match s with
  | EmptyString => None
  | String c r =>
      match digit_val c with
      | None => Some FSyntax
      | Some d => if (2 ^ 64 <=? 10 * acc + d)%N then Some FRange else digits_fault (10 * acc + d)%N r
      end
  end.
Definition parse_uint_fault (s : string) : option fault :=
  match s with EmptyString => Some FSyntax | _ => digits_fault 0 s end.

(** Why strconv.Atoi(s) fails, if it does ([FRange] also for a number of 64 bits beyond those of int). *)
Definition atoi_fault (s : string) : fault :=
  let body := match s with String "-"%char r | String "+"%char r => r | _ => s end in
  match parse_uint_fault body with Some k => k | None => FRange end.

(** *strconv.NumError, its Error and Unwrap methods *)
Definition err_syntax : string := "strconv.ErrSyntax".
Definition err_range : string := "strconv.ErrRange".
Definition num_error (fn num : string) (k : fault) : error :=
  EForeign ("strconv." +:+ fn +:+ ": parsing " +:+ quote num +:+ ": " +:+
            match k with FSyntax => "invalid syntax" | FRange => "value out of range" end)
           [match k with FSyntax => err_syntax | FRange => err_range end].

(** strconv.FormatUint(n, 10) *)
Definition format_uint (n : N) : string := NilEmpty.string_of_uint (N.to_uint n).

(** strconv.Itoa(z) *)
Definition itoa (z : Z) : string :=
  match z with
  | Zneg p => "-" +:+ format_uint (Npos p)
  | _ => format_uint (Z.to_N z)
  end.

(** strconv.FormatBool(b) *)
Definition format_bool (b : bool) : string := if b then "true" else "false".

(** strconv.ParseFloat(s, 64) and strconv.FormatFloat(f, 'f', -1, 64) are not modelled:
    a float64 is its bit pattern and the two functions are parameters of the model, as is the error that
    ParseFloat gives. *)
Record floatlib := mkFloatlib {
  fl_parse : string -> option N;
  fl_format : N -> string;
  fl_error : string -> error
}.

(** strings joined with a separator (strings.Builder loops of the String methods). *)
Fixpoint join_with (sep : string) (l : list string) : string :=
  match l with
  | [] => ""
  | [x] => x
  | x :: l' => x +:+ sep +:+ join_with sep l'
  end.

(** fmt.Sprint of a byte slice: [1 2 3] *)
Definition sprint_bytes (l : list ascii) : string :=
  "[" +:+ join_with " " (map (fun c => format_uint (N_of_ascii c)) l) +:+ "]".

(** ** packages sort and slices *)

Fixpoint insert_sorted (x : string) (l : list string) : list string :=
  match l with
  | [] => [x]
  | y :: l' => if String.leb x y then x :: l else y :: insert_sorted x l'
  end.

(** sort.Strings: the sorted permutation (unique, the order being total on strings). *)
Fixpoint sort_strings (l : list string) : list string :=
  match l with
  | [] => []
  | x :: l' => insert_sorted x (sort_strings l')
  end.

(** the result slice of slices.Compact *)
Fixpoint compacted (l : list string) : list string :=
  match l with
  | [] => []
  | x :: l' =>
      match l' with
      | y :: _ => if String.eqb x y then compacted l' else x :: compacted l'
      | [] => [x]
      end
  end.

(** What slices.Compact leaves in its argument: the compacted elements, then zero values
    (since Go 1.22 the elements between the new length and the original length are cleared;
    go.mod requires go 1.26).  The argument keeps its length. *)
Definition compact_arg (l : list string) : list string :=
  let d := compacted l in
  (d ++ replicate (length l - length d) "")%list.

(** ** package path/filepath (Unix) *)

(** the components of a path: the parts between separators *)
Fixpoint split_on (c : ascii) (s : string) : list string :=
  match s with
  | EmptyString => [""]
  | String x r =>
      if Ascii.eqb x c then "" :: split_on c r
      else match split_on c r with
           | h :: t => String x h :: t
           | [] => [String x ""]
           end
  end.

(** one component processed by filepath.Clean; the stack has the last component first *)
Definition clean_step (rooted : bool) (stack : list string) (c : string) : list string :=
  if String.eqb c "" || String.eqb c "." then stack
  else if String.eqb c ".." then
    match stack with
    | x :: rest => if String.eqb x ".." then ".." :: stack else rest
    | [] => if rooted then [] else [".."]
    end
  else c :: stack.

(** filepath.Clean *)
Definition path_clean (s : string) : string :=
  let rooted := has_prefix s "/" in
  let comps := rev (fold_left (clean_step rooted) (split_on "/"%char s) []) in
  let body := join_with "/" comps in
  if rooted then "/" +:+ body else if String.eqb body "" then "." else body.

(** filepath.Join *)
Definition path_join (elems : list string) : string :=
  let ne := List.filter (fun e => negb (String.eqb e "")) elems in
  match ne with
  | [] => ""
  | _ => path_clean (join_with "/" ne)
  end.

(** filepath.Split: the directory part, up to and including the last separator *)
Definition path_dir (s : string) : string :=
  match last_index "/"%char s with
  | Some i => str_take (S i) s
  | None => ""
  end.
