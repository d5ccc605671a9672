(** Integers in decimal: [operator<<( ostream, int )] and C's [strtol]. *)

From Verif Require Import Base.

(** ** Printing.  [ostr << num] for an [int] (iges_io.cpp L483-484, used by all
    integer formatting in the library): optional minus sign and the shortest
    decimal numeral. *)

Definition digit_char (d : Z) : ascii := chr (48 + d).

Fixpoint digs (fuel : nat) (n : Z) (acc : str) : str :=
  match fuel with
  | O => acc
  | S f =>
    let acc' := digit_char (n mod 10) :: acc in
    if n / 10 =? 0 then acc' else digs f (n / 10) acc'
  end.

(** Decimal numeral of a non-negative number. *)
Definition showN (n : Z) : str := digs (S (Z.to_nat (Z.log2 n))) n [].

Definition showZ (n : Z) : str :=
  if n <? 0 then "-"%char :: showN (- n) else showN n.

(** ** Reading.  [strtol( cp, &rp, 10 )] in the "C" locale with 64-bit [long]
    (iges_io.cpp L93, L254, L399).  The argument is the C string without its
    terminating NUL; an embedded NUL stops the conversion like any other
    non-digit.  [None] stands for "no conversion performed" and for [ERANGE]:
    all callers test [errno || cp == rp] and treat both alike.  [Some (v, r)]
    gives the value and the text from [rp] on. *)

Definition is_space (c : ascii) : bool :=
  let n := code c in (n =? 32) || ((9 <=? n) && (n <=? 13)).

Definition digit_val (c : ascii) : option Z :=
  let n := code c in
  if (48 <=? n) && (n <=? 57) then Some (n - 48) else None.

Fixpoint skip_space (s : str) : str :=
  match s with
  | c :: r => if is_space c then skip_space r else s
  | [] => []
  end.

(** Digits from the left, accumulating the value. *)
Fixpoint scan_digits (s : str) (acc : Z) : Z * str :=
  match s with
  | c :: r =>
    match digit_val c with
    | Some d => scan_digits r (10 * acc + d)
    | None => (acc, s)
    end
  | [] => (acc, [])
  end.

Definition long_max : Z := 9223372036854775807.
Definition long_min : Z := -9223372036854775808.

Definition take_sign (s : str) : bool * str :=
  match s with
  | c :: r =>
    if Ascii.eqb c "-" then (true, r)
    else if Ascii.eqb c "+" then (false, r)
    else (false, s)
  | [] => (false, [])
  end.

Definition strtol (s : str) : option (Z * str) :=
  let '(neg, s1) := take_sign (skip_space s) in
  match s1 with
  | c :: _ =>
    match digit_val c with
    | Some _ =>
      let '(v, r) := scan_digits s1 0 in
      let v := if neg : bool then - v else v in
      if (long_min <=? v) && (v <=? long_max) then Some (v, r) else None
    | None => None
    end
  | [] => None
  end.

(** [int i = strtol(..)]: conversion of a 64-bit [long] to a 32-bit [int]
    (implementation defined; two's complement wrap on all supported targets). *)
Definition wrap32 (n : Z) : Z :=
  (n + 2147483648) mod 4294967296 - 2147483648.

Definition int_max : Z := 2147483647.
