(** Base definitions shared by the whole model: byte strings, characters and
    the outcome type.  Nothing in this file is specific to libIGES. *)

From Coq Require Export String Ascii ZArith NArith Bool List.
Export ListNotations.
Open Scope Z_scope.
Open Scope list_scope.

(** A [std::string] or the bytes of a file. *)
Definition str := list ascii.

(** String literals. *)
Definition S2 (s : string) : str := list_ascii_of_string s.

Definition sp : ascii := " "%char.
Definition nul : ascii := Ascii.zero.
Definition chr (n : Z) : ascii := ascii_of_N (Z.to_N n).
Definition nl : ascii := chr 10.
Definition cr : ascii := chr 13.
Definition ff : ascii := chr 12.

(** Numeric code of a character, 0..255. *)
Definition code (c : ascii) : Z := Z.of_N (N_of_ascii c).

(** [std::string::append( n, ' ' )] up to width [w]; nothing is added when the
    string is already [w] or longer. *)
Definition padr (w : nat) (s : str) : str := s ++ repeat sp (w - length s).

(** [s[i]]; for [i = s.size()] this is the terminating NUL, as in C++. *)
Definition at_ (s : str) (i : nat) : ascii := nth i s nul.

(** [s.substr(i,n)] for [i <= s.size()]. *)
Definition substr (s : str) (i n : nat) : str := firstn n (skipn i s).

(** [s[0] = c] for a non-empty string. *)
Definition set0 (c : ascii) (s : str) : str :=
  match s with [] => [] | _ :: r => c :: r end.

(** Last character of a string, [None] if empty (in C++ this is an access
    outside of the string). *)
Fixpoint last_char (s : str) : option ascii :=
  match s with
  | [] => None
  | [c] => Some c
  | _ :: r => last_char r
  end.

(** Structural equality of byte strings. *)
Fixpoint str_eqb (a b : str) : bool :=
  match a, b with
  | [], [] => true
  | x :: a', y :: b' => Ascii.eqb x y && str_eqb a' b'
  | _, _ => false
  end.

(** Outcome of a C++ function which returns [bool] and modifies state of type
    [A] through references: [Ret b st] is a normal return of [b] leaving [st];
    [Crash] is undefined behaviour or an uncaught exception. *)
Inductive outcome (A : Type) : Type :=
| Crash : outcome A
| Ret : bool -> A -> outcome A.
Arguments Crash {A}.
Arguments Ret {A} _ _.

(** Outcome of a parser: failure ([return false]) carries no state because no
    caller looks at it. *)
Inductive pres (A : Type) : Type :=
| PCrash : pres A
| PFail : pres A
| POk : A -> pres A.
Arguments PCrash {A}.
Arguments PFail {A}.
Arguments POk {A} _.

Definition pbind {A B} (x : pres A) (f : A -> pres B) : pres B :=
  match x with
  | PCrash => PCrash
  | PFail => PFail
  | POk a => f a
  end.

Notation "'do' p <- x ; y" := (pbind x (fun p => y))
  (at level 200, p pattern, x at level 100, y at level 200, right associativity).

(** [guard b; k]: continue only if [b] holds, otherwise [return false]. *)
Definition guard {B} (b : bool) (k : pres B) : pres B := if b then k else PFail.
