(** What reading back a Global Section means.  The only model definitions used
    are the fields of [globals]. *)

From Coq Require Import QArith Qabs.
From Verif Require Import Base Spec GlobalModel.
Open Scope Z_scope.

(** Total length of the texts of the Global Section. *)
Definition texts_length (g : globals) (ver : str) : Z :=
  Z.of_nat (length (productIDSS g) + length (fileName g) + length (nativeSystemID g) + length ver +
            length (productIDRS g) + length (creationDate g) + length (author g) +
            length (organization g) + length (applicationNote g)).

Definition one_line (s : str) : Prop := ~ In nl s.

(** An int of 32 bits. *)
Definition is_int (n : Z) : Prop := -2147483648 <= n <= 2147483647.

(** Settings which the writer handles: legal delimiters, a unit of the
    enumeration, a scale and resolution of sensible size, texts without line
    breaks and of at most 600 million characters in total, a creation date which
    does not make the date check read outside of its table. *)
Definition settings_ok (g : globals) (ver now : str) : Prop :=
  delims (pdelim g) (rdelim g) /\
  fileName g <> [] /\
  1 <= unitsFlag g <= 11 /\
  ((1 # 100000000) <= Qabs (modelScale g) /\ Qabs (modelScale g) <= (10 # 1) ^ 300)%Q /\
  (minResolution g <= (10 # 1) ^ 300)%Q /\
  is_int (maxLinewidthGrad g) /\ is_int (draftStandard g) /\
  ~ month_outside (creationDate g) /\ calendar_date now /\
  Forall one_line [productIDSS g; fileName g; nativeSystemID g; ver; productIDRS g;
                   creationDate g; author g; organization g; applicationNote g] /\
  texts_length g ver <= 600000000.

(** Delimiters for which reading works. *)
Definition delims_readable (g : globals) : Prop :=
  (pdelim g = ","%char /\ rdelim g = ";"%char) \/ (pdelim g <> ","%char /\ pdelim g <> ";"%char).

(** The resolution the writer works with. *)
Definition resolution (g : globals) (r : Q) : Prop :=
  ((minResolution g < 1 # 1000000000000)%Q /\ r = (1 # 1000)%Q) \/
  ((1 # 1000000000000 <= minResolution g)%Q /\ r = minResolution g).

Definition or_default (d s : str) : str := match s with [] => d | _ => s end.

(** Length of the units in millimetres, "external" units counting as one. *)
Definition mm_per_unit (flag : Z) : Q :=
  match flag with
  | 1 => (254 # 10)%Q | 4 => (3048 # 10)%Q | 5 => (1609344 # 1)%Q | 6 => (1000 # 1)%Q | 7 => (1000000 # 1)%Q
  | 8 => (254 # 10000)%Q | 9 => (1 # 1000)%Q | 10 => (10 # 1)%Q | 11 => (254 # 10000000)%Q | _ => (1 # 1)%Q
  end.

(** The unit abbreviations of the IGES specification; "CUST" for external units. *)
Definition unit_abbrev (flag : Z) : string :=
  match flag with
  | 1 => "IN"%string | 2 => "MM"%string | 3 => "CUST"%string | 4 => "FT"%string | 5 => "MI"%string
  | 6 => "M"%string | 7 => "KM"%string | 8 => "MIL"%string | 9 => "UM"%string | 10 => "CM"%string
  | 11 => "UIN"%string | _ => ""%string
  end.

(** Scales which are left alone. *)
Definition unit_scale (s : Q) : Prop := (9999998 # 10000000 <= s /\ s <= 1000001 # 1000000)%Q.

(** Scale [s], unit [u], resolution [r] of a file, in the model [g']. *)
Definition not_normalised (s : Q) (u : Z) (r : Q) (g' : globals) : Prop :=
  (modelScale g' == s)%Q /\ unitsFlag g' = u /\ (minResolution g' == r)%Q /\
  convert g' = false.

Definition normalised (s : Q) (u : Z) (r : Q) (g' : globals) : Prop :=
  unitsFlag g' = 2 /\
  (unit_scale s ->
     (modelScale g' == s)%Q /\ (minResolution g' == r * mm_per_unit u)%Q /\
     (convert g' = true <-> u <> 2) /\ (cf g' == mm_per_unit u)%Q) /\
  (~ unit_scale s ->
     (modelScale g' == 1)%Q /\ (minResolution g' == r / s * mm_per_unit u)%Q /\
     convert g' = true /\ (cf g' == mm_per_unit u / s)%Q).

(** The settings found when a Global Section written for [g] at time [now] is
    read. *)
Definition reads_back (g : globals) (ver now : str) (g' : globals) : Prop :=
  pdelim g' = pdelim g /\ rdelim g' = rdelim g /\
  productIDSS g' = or_default (S2 "none") (productIDSS g) /\
  fileName g' = fileName g /\
  nativeSystemID g' = or_default (S2 "none") (nativeSystemID g) /\
  preprocessorVersion g' = ver /\
  nIntegerBits g' = 32 /\ floatMaxExp g' = 38 /\ floatMaxSig g' = 6 /\ doubleMaxExp g' = 308 /\ doubleMaxSig g' = 15 /\
  productIDRS g' = productIDRS g /\
  unitsName g' = S2 (unit_abbrev (unitsFlag g)) /\
  maxLinewidthGrad g' = Z.max 1 (maxLinewidthGrad g) /\
  (accepted_date (creationDate g) -> creationDate g' = creationDate g) /\
  (~ accepted_date (creationDate g) -> creationDate g' = now) /\
  (maxCoordinateValue g' == 0)%Q /\
  author g' = author g /\ organization g' = organization g /\
  igesVersion g' = 11 /\ draftStandard g' = draftStandard g /\
  modificationDate g' = now /\ applicationNote g' = applicationNote g /\
  exists r s w m, resolution g r /\
    real_close r (modelScale g) s /\ real_close r r m /\
    ((maxLinewidth g < 1 # 1000000)%Q -> real_close r 1 w) /\
    ((1 # 1000000 <= maxLinewidth g)%Q -> real_close r (inject_Z (Z.max 1 (maxLinewidthGrad g))) w) /\
    (maxLinewidth g' == w)%Q /\
    match applicationNote g with
    | [] => not_normalised s (unitsFlag g) m g'
    | _ => normalised s (unitsFlag g) m g'
    end.

(** ** Global Sections of any origin *)

(** Items 1 and 2 in the forms which can be read: both left out, the first one
    given, both given. *)
Inductive delim_items : ascii -> ascii -> str -> Prop :=
| di_none : delim_items "," ";" (S2 ",,")
| di_first : forall pd, pd <> ";"%char -> delim_items pd ";" (S2 "1H" ++ [pd; pd; pd])
| di_both : forall pd rd, pd <> ";"%char -> delim_items pd rd (S2 "1H" ++ [pd; pd] ++ S2 "1H" ++ [rd; pd]).

(** Items 3 to 26 holding the values of [x]. *)
Definition item_params (x : globals) : list param :=
  [PStr (productIDSS x); PStr (fileName x); PStr (nativeSystemID x); PStr (preprocessorVersion x);
   PInt (nIntegerBits x); PInt (floatMaxExp x); PInt (floatMaxSig x); PInt (doubleMaxExp x); PInt (doubleMaxSig x);
   PStr (productIDRS x); PReal (modelScale x); PInt (unitsFlag x); PStr (unitsName x); PInt (maxLinewidthGrad x);
   PReal (maxLinewidth x); PStr (creationDate x); PReal (minResolution x); PReal (maxCoordinateValue x);
   PStr (author x); PStr (organization x); PInt (igesVersion x); PInt (draftStandard x); PStr (modificationDate x);
   PStr (applicationNote x)].

(** Values which are accepted.  Zero, and magnitudes which a normal double can
    hold, for the reals. *)
Definition double_ok (q : Q) : Prop := (q == 0)%Q \/ ((10 # 1) ^ (-300) <= Qabs q /\ Qabs q <= (10 # 1) ^ 307)%Q.

Definition acceptable (x : globals) : Prop :=
  productIDSS x <> [] /\ fileName x <> [] /\ nativeSystemID x <> [] /\
  8 <= nIntegerBits x <= 32 /\ 4 <= floatMaxExp x <= 308 /\ 3 <= floatMaxSig x <= 16 /\
  4 <= doubleMaxExp x <= 308 /\ 3 <= doubleMaxSig x <= 16 /\
  1 <= unitsFlag x <= 11 /\ (unitsFlag x = 3 -> unitsName x <> []) /\
  1 <= maxLinewidthGrad x <= 2147483647 /\ (0 <= maxLinewidth x)%Q /\ accepted_date (creationDate x) /\
  (0 < minResolution x)%Q /\ (0 <= maxCoordinateValue x)%Q /\ is_int (igesVersion x) /\ is_int (draftStandard x) /\
  accepted_date (modificationDate x) /\
  Forall double_ok [modelScale x; maxLinewidth x; minResolution x; maxCoordinateValue x].

(** [v] when item number [n] is among the first [k] items behind the delimiters,
    else the default. *)
Definition present {A} (k n : nat) (v dflt : A) : A := if (n <? k)%nat then v else dflt.

(** The model [g'] after reading the first [k] items of [x]. *)
Definition found (k : nat) (pd rd : ascii) (x g' : globals) : Prop :=
  pdelim g' = pd /\ rdelim g' = rd /\ productIDSS g' = productIDSS x /\ fileName g' = fileName x /\
  nativeSystemID g' = nativeSystemID x /\ preprocessorVersion g' = preprocessorVersion x /\
  nIntegerBits g' = nIntegerBits x /\ floatMaxExp g' = floatMaxExp x /\ floatMaxSig g' = floatMaxSig x /\
  doubleMaxExp g' = doubleMaxExp x /\ doubleMaxSig g' = doubleMaxSig x /\ productIDRS g' = productIDRS x /\
  unitsName g' = match unitsName x with [] => [] | n => if unitsFlag x =? 3 then n else S2 (unit_abbrev (unitsFlag x)) end /\
  maxLinewidthGrad g' = maxLinewidthGrad x /\ (maxLinewidth g' == maxLinewidth x)%Q /\ creationDate g' = creationDate x /\
  (maxCoordinateValue g' == present k 17 (maxCoordinateValue x) (0 # 1))%Q /\
  author g' = present k 18 (author x) [] /\ organization g' = present k 19 (organization x) [] /\
  igesVersion g' = present k 20 (Z.max 3 (Z.min 11 (igesVersion x))) 3 /\
  draftStandard g' = present k 21 (draftStandard x) 0 /\ modificationDate g' = present k 22 (modificationDate x) [] /\
  applicationNote g' = present k 23 (applicationNote x) [] /\
  if (k =? 24)%nat then normalised (modelScale x) (unitsFlag x) (minResolution x) g'
  else not_normalised (modelScale x) (unitsFlag x) (minResolution x) g'.

(** The same settings with another maximum line width. *)
Definition with_linewidth (g : globals) (w : Q) : globals :=
  mkG (pdelim g) (rdelim g) (productIDSS g) (fileName g) (nativeSystemID g) (preprocessorVersion g)
    (nIntegerBits g) (floatMaxExp g) (floatMaxSig g) (doubleMaxExp g) (doubleMaxSig g) (productIDRS g)
    (modelScale g) (unitsFlag g) (unitsName g) (maxLinewidthGrad g) w (creationDate g) (minResolution g)
    (maxCoordinateValue g) (author g) (organization g) (igesVersion g) (draftStandard g)
    (modificationDate g) (applicationNote g) (cf g) (convert g).
