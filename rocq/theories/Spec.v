(** Specification vocabulary: what numerals, columns and lines mean.  These
    definitions do not use any function of the model. *)

From Coq Require Import QArith Qabs.
From Verif Require Import Base.
Open Scope Z_scope.

(** A decimal digit character. *)
Definition isdig (c : ascii) : Prop := 48 <= code c <= 57.

(** The number denoted by a string of digits. *)
Definition dval (s : str) : Z := fold_left (fun a c => 10 * a + (code c - 48)) s 0.

(** [s] is a non-empty string of digits denoting [n]. *)
Definition numeral (s : str) (n : Z) : Prop :=
  s <> [] /\ Forall isdig s /\ dval s = n.

(** [s] is a numeral with optional sign denoting [n]. *)
Definition signed_numeral (s : str) (n : Z) : Prop :=
  numeral s n \/
  (exists d, s = "+"%char :: d /\ numeral d n) \/
  (exists d, s = "-"%char :: d /\ numeral d (- n)).

(** Columns holding blanks only. *)
Definition blanks (s : str) : Prop := Forall (fun c => c = sp) s.

(** White space of the C locale. *)
Definition isspc (c : ascii) : Prop := code c = 32 \/ 9 <= code c <= 13.

(** [s] is [w] columns wide and holds the number [n], right justified and blank
    filled. *)
Definition column (w : nat) (n : Z) (s : str) : Prop :=
  length s = w /\ exists b d, s = b ++ d /\ blanks b /\ signed_numeral d n.

(** A Parameter Data section line: 64 data columns, a blank, the Directory Entry
    number in seven columns, P, the sequence number in seven columns, newline. *)
Definition pd_line (de k : Z) (data line : str) : Prop :=
  length data = 64%nat /\
  exists c1 c2, line = data ++ sp :: c1 ++ "P"%char :: c2 ++ [nl] /\
                column 7 de c1 /\ column 7 k c2.

(** A line of another section: 72 data columns, the section letter, the sequence
    number in seven columns, newline. *)
Definition sec_line (letter : ascii) (k : Z) (data line : str) : Prop :=
  length data = 72%nat /\
  exists c, line = data ++ letter :: c ++ [nl] /\ column 7 k c.

(** Consecutively numbered lines carrying the given data columns. *)
Inductive numbered (L : Z -> str -> str -> Prop) : Z -> list str -> str -> Prop :=
| num_nil : forall k, numbered L k [] []
| num_cons : forall k d ds l rest,
    L k d l -> numbered L (k + 1) ds rest -> numbered L k (d :: ds) (l ++ rest).

(** Delimiter characters allowed by the IGES format: printable, not a digit, not
    one of the characters used in numbers and Hollerith strings. *)
Definition delim_char (c : ascii) : Prop :=
  33 <= code c <= 126 /\ ~ isdig c /\
  c <> "+"%char /\ c <> "-"%char /\ c <> "."%char /\
  c <> "D"%char /\ c <> "E"%char /\ c <> "H"%char.

Definition delims (pd rd : ascii) : Prop := delim_char pd /\ delim_char rd /\ pd <> rd.

(** ** Real numbers *)

(** Exponent part of a real: nothing, or E or D, a sign and digits. *)
Definition exponent (s : str) (x : Z) : Prop :=
  (s = [] /\ x = 0) \/
  exists mk sg d, s = mk :: sg :: d /\ (mk = "E"%char \/ mk = "D"%char) /\
    ((sg = "+"%char /\ numeral d x) \/ (sg = "-"%char /\ numeral d (- x))).

(** [s] is a legal real constant denoting [q]: optional minus sign, digits,
    optional fraction and optional exponent, where at least one of the latter two
    is present; the fraction does not end in a superfluous zero. *)
Definition real_numeral (s : str) (q : Q) : Prop :=
  exists sg ip fr ex m x,
    s = sg ++ ip ++ match fr with [] => [] | _ => "."%char :: fr end ++ ex /\
    ((sg = [] /\ m = dval (ip ++ fr)) \/ (sg = ["-"%char] /\ m = - dval (ip ++ fr))) /\
    ip <> [] /\ Forall isdig ip /\ Forall isdig fr /\ exponent ex x /\
    (fr <> [] \/ ex <> []) /\
    (fr = ["0"%char] \/ forall f, fr <> f ++ ["0"%char]) /\
    (q == inject_Z m * (10 # 1) ^ (x - Z.of_nat (length fr)))%Q.

(** [q] is what is left of the real [v] after it was written at the resolution
    [uir]: values below 10^-8 become 0; others lose at most half a thousandth of
    the resolution or else five parts in 10^16, never more than five parts in
    10^6; and a value of at most six significant digits loses nothing. *)
Definition real_close (uir v q : Q) : Prop :=
  ((Qabs v < 1 # 100000000)%Q -> (q == 0)%Q) /\
  ((1 # 100000000 <= Qabs v)%Q ->
     ((Qabs (q - v) <= (1 # 2000) * uir)%Q \/
      (Qabs (q - v) <= (5 # 10000000000000000) * Qabs v)%Q) /\
     (Qabs (q - v) <= (5 # 1000000) * Qabs v)%Q /\
     forall n k, (v == inject_Z n * (10 # 1) ^ k)%Q -> Z.abs n < 1000000 -> (q == v)%Q).

(** A parameter: an integer, a text or a real. *)
Inductive param := PInt (n : Z) | PStr (s : str) | PReal (q : Q).

(** The text of a parameter, followed by its delimiter [d].  A Hollerith string
    is its length in decimal, the letter H and the characters; the empty string
    is written as nothing at all. *)
Definition hollerith (s t : str) : Prop :=
  (s = [] /\ t = []) \/
  (s <> [] /\ exists d, numeral d (Z.of_nat (length s)) /\ t = d ++ "H"%char :: s).

Definition param_text (p : param) (t : str) : Prop :=
  match p with
  | PInt n => signed_numeral t n
  | PStr s => hollerith s t
  | PReal q => real_numeral t q
  end.

(** Parameters with equal values. *)
Definition param_eq (a b : param) : Prop :=
  match a, b with
  | PInt n, PInt m => n = m
  | PStr s, PStr t => s = t
  | PReal p, PReal q => (p == q)%Q
  | _, _ => False
  end.

(** What a parameter becomes when it is written at the resolution [uir] and read:
    integers and texts stay as they are. *)
Definition param_close (uir : Q) (a b : param) : Prop :=
  match a, b with
  | PInt n, PInt m => n = m
  | PStr s, PStr t => s = t
  | PReal v, PReal q => real_close uir v q
  | _, _ => False
  end.

(** [spaced pd rd ps s]: the characters [s] consist of the parameters [ps] in
    order, each followed by the parameter delimiter except the last which is
    followed by the record delimiter; blanks may precede a parameter that is not
    empty. *)
Inductive spaced (pd rd : ascii) : list param -> str -> Prop :=
| spaced_last : forall p b t, blanks b -> param_text p t -> (t = [] -> b = []) ->
    spaced pd rd [p] (b ++ t ++ [rd])
| spaced_cons : forall p b t ps s, blanks b -> param_text p t -> (t = [] -> b = []) ->
    spaced pd rd ps s -> spaced pd rd (p :: ps) (b ++ t ++ pd :: s).

(** The same for an unfinished record: every parameter is followed by the
    parameter delimiter. *)
Inductive spaced_open (pd : ascii) : list param -> str -> Prop :=
| spo_nil : spaced_open pd [] []
| spo_cons : forall p b t ps s, blanks b -> param_text p t -> (t = [] -> b = []) ->
    spaced_open pd ps s -> spaced_open pd (p :: ps) (b ++ t ++ pd :: s).

(** ** Records *)

(** Line end characters: newline, carriage return, form feed. *)
Definition eol_char (c : ascii) : Prop := c = nl \/ c = cr \/ c = ff.

(** Section letters. *)
Definition section_letter (c : ascii) : Prop :=
  c = "F"%char \/ c = "S"%char \/ c = "G"%char \/ c = "D"%char \/ c = "P"%char \/ c = "T"%char.

(** Seven columns holding a number: white space, a numeral with optional sign,
    up to the end or to a NUL byte. *)
Definition seven_columns (n : Z) (s : str) : Prop :=
  length s = 7%nat /\
  exists w t z, s = w ++ t ++ z /\ Forall isspc w /\ signed_numeral t n /\
                match z with [] => True | c :: _ => c = nul end.

(** An 80 column record with its data, section letter and sequence number, and
    any run of line end characters behind it. *)
Definition record_line (line data : str) (letter : ascii) (n : Z) : Prop :=
  length data = 72%nat /\ section_letter letter /\ 0 < n /\
  exists num e, line = data ++ letter :: num ++ e /\ seven_columns n num /\
    (forall f c, num = f ++ [c] -> ~ eol_char c) /\ Forall eol_char e.

(** The same file with CR LF line ends. *)
Fixpoint crlf (s : str) : str :=
  match s with
  | [] => []
  | c :: r => if Ascii.eqb c nl then cr :: nl :: crlf r else c :: crlf r
  end.

(** ** Dates *)

(** All of [s] is white space and a numeral with optional sign. *)
Definition padded_number (v : Z) (s : str) : Prop :=
  exists w t, s = w ++ t /\ Forall isspc w /\ signed_numeral t v.

(** [s] starts with white space and such a numeral. *)
Definition leading_number (s : str) (v : Z) : Prop :=
  exists w t r, s = w ++ t ++ r /\ Forall isspc w /\ signed_numeral t v /\
                match r with [] => True | c :: _ => ~ isdig c end.

(** Days of a month; 29 for February. *)
Definition days_in (m : Z) : Z :=
  if m =? 2 then 29 else if (m =? 4) || (m =? 6) || (m =? 9) || (m =? 11) then 30 else 31.

(** [YYMMDD.HHNNSS] or [YYYYMMDD.HHNNSS] as the library takes it: fields may be
    padded or signed, there is no bound on the seconds and every February has 29
    days. *)
Definition accepted_date (d : str) : Prop :=
  exists y m dd h mi s vy vm vd vh vi vs,
    d = y ++ m ++ dd ++ "."%char :: h ++ mi ++ s /\ (length y = 2%nat \/ length y = 4%nat) /\
    length m = 2%nat /\ length dd = 2%nat /\ length h = 2%nat /\ length mi = 2%nat /\ length s = 2%nat /\
    padded_number vy (if (length y =? 2)%nat then S2 "19" ++ y else y) /\
    padded_number vm m /\ 1 <= vm <= 12 /\ padded_number vd dd /\ 1 <= vd <= days_in vm /\
    padded_number vh h /\ 0 <= vh <= 23 /\ padded_number vi mi /\ 0 <= vi <= 59 /\
    padded_number vs s /\ 0 <= vs.

(** A text of the right length whose day is at least 1 and whose month does not
    start with a number from 1 to 12. *)
Definition month_outside (d : str) : Prop :=
  exists y m dd x, d = y ++ m ++ dd ++ x /\ (length y = 2%nat \/ length y = 4%nat) /\
    length m = 2%nat /\ length dd = 2%nat /\ length x = 7%nat /\
    (forall v, leading_number m v -> ~ 1 <= v <= 12) /\
    (exists v, leading_number dd v /\ 1 <= v).

(** A calendar date and time of day in digits. *)
Definition calendar_date (d : str) : Prop :=
  exists y m dd h mi s vy vm vd vh vi vs,
    d = y ++ m ++ dd ++ "."%char :: h ++ mi ++ s /\ (length y = 2%nat \/ length y = 4%nat) /\
    length m = 2%nat /\ length dd = 2%nat /\ length h = 2%nat /\ length mi = 2%nat /\ length s = 2%nat /\
    numeral y vy /\ numeral m vm /\ 1 <= vm <= 12 /\ numeral dd vd /\ 1 <= vd <= days_in vm /\
    numeral h vh /\ vh <= 23 /\ numeral mi vi /\ vi <= 59 /\ numeral s vs /\ vs <= 60.
