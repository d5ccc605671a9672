(** What the outlines in an IDF file mean: points which are numbered by their loop, and
    how close a loop which was written and read again is to the first. *)

From Verif Require Import Base Num IoModel IdfText Spec IdfSpec IdfOutl.
Open Scope Z_scope.

(** ** Angles and places *)

(** Degrees which make a line, and those which make a circle. *)
Definition straight (a : Q) : Prop := (- (1 # 100) <= a <= 1 # 100)%Q.
Definition round (a : Q) : Prop := (360 - (1 # 100) < Qabs a < 360 + (1 # 100))%Q.

(** The angle of a segment by what the file says. *)
Definition taken (a a' : Q) : Prop :=
  (straight a /\ a' = 0%Q) \/ (round a /\ a' = 360%Q) \/ (~ straight a /\ ~ round a /\ a' = a).

(** Not more than 1e-5 from each other. *)
Definition meets (p q : qpt) : Prop :=
  ((qx p - qx q) * (qx p - qx q) + (qy p - qy q) * (qy p - qy q) <= 1 # 10000000000)%Q.

(** ** Loops *)

(** A point and the angle which leads to it. *)
Definition mark : Type := qpt * Q.

(** Segments from a point through the others. *)
Inductive leads : qpt -> list mark -> qloop -> Prop :=
| leads_nil p : leads p [] []
| leads_cons p q a a' l g : taken a a' -> leads q l g -> leads p ((q, a) :: l) (mkQs p q a' :: g).

(** The points of a loop, in order: a circle by its centre and one point; anything else
    by its start, the next point, others which are not at the start, and the start again. *)
Inductive loop_means : list mark -> qloop -> Prop :=
| means_circle p a q b g : straight a -> round b -> leads p [(q, b)] g -> loop_means [(p, a); (q, b)] g
| means_loop p a m mid q b g : straight a ->
    Forall (fun n => ~ round (snd n)) (m :: mid ++ [(q, b)]) ->
    Forall (fun n => ~ meets (fst n) p) mid -> meets q p ->
    leads p (m :: mid ++ [(q, b)]) g -> loop_means ((p, a) :: m :: mid ++ [(q, b)]) g.

(** The points of a loop with its number, and of all loops from a number on. *)
Definition with_index (i : Z) (l : list mark) : list orec := map (fun m => mkOr i (fst m) (snd m)) l.
Fixpoint numbered (i : Z) (gs : list (list mark)) : list orec :=
  match gs with [] => [] | g :: gs' => with_index i g ++ numbered (i + 1) gs' end.

(** The first loop counterclockwise, the others clockwise or circles; the last loop is
    not looked at. *)
Definition wound (ccw : qloop -> bool) (ls : list qloop) : Prop :=
  forall a l b, ls = a ++ l :: b -> b <> [] ->
    (a = [] -> ccw l = true) /\ (a <> [] -> ccw l = true -> length l = 1%nat).

(** What a section says: its records and its loops. *)
Definition section_means (ccw : qloop -> bool) (single : bool) (rs : list orec) (ls : list qloop) : Prop :=
  exists i gs, rs = numbered i gs /\ Forall2 loop_means gs ls /\
    (i = 0 \/ (single = true /\ i = 1)) /\ (single = true -> (length gs <= 1)%nat) /\ wound ccw ls.

(** ** Written and read again *)

(** The last segment ends exactly where the first starts. *)
Definition shut (l : qloop) : qloop :=
  match l with
  | [] => []
  | s :: _ => removelast l ++ [mkQs (q_start (last l s)) (q_start s) (q_ang (last l s))]
  end.

(** The other way round, beginning with the same segment. *)
Definition flip (g : qseg) : qseg := mkQs (q_end g) (q_start g) (- q_ang g).
Definition other_way (l : qloop) : qloop := match l with [] => [] | s :: l' => flip s :: rev (map flip l') end.

(** The way which is written: loop 0 counterclockwise, the others clockwise.  A circle,
    or the only loop, as it is. *)
Definition way (ccw : qloop -> bool) (single : bool) (i : Z) (l : qloop) : qloop :=
  match l with
  | [_] => l
  | _ => if negb single && Bool.eqb (ccw l) (0 <? i) then other_way (shut l) else shut l
  end.
Fixpoint ways (ccw : qloop -> bool) (single : bool) (i : Z) (ls : list qloop) : list qloop :=
  match ls with [] => [] | l :: ls' => way ccw single i l :: ways ccw single (i + 1) ls' end.

(** Positions within half of the last digit written, angles within 0.0005. *)
Definition near_pt (u : unit_of) (p p' : qpt) : Prop := near (tol_pos u) (qx p) (qx p') /\ near (tol_pos u) (qy p) (qy p').
Definition near_seg (u : unit_of) (g g' : qseg) : Prop :=
  near_pt u (q_start g) (q_start g') /\ near_pt u (q_end g) (q_end g') /\ near (1 # 2000) (q_ang g) (q_ang g').
Definition near_loop (u : unit_of) (l l' : qloop) : Prop := Forall2 (near_seg u) l l'.

(** Segments one after the other. *)
Fixpoint joined (p : qpt) (l : qloop) : Prop :=
  match l with [] => True | g :: l' => q_start g = p /\ joined (q_end g) l' end.

(** Two points which stay apart when they are written. *)
Definition gap (u : unit_of) : Q := match u with MM => 3 # 100000 | _ => 3 # 1000 end.
Definition apart (u : unit_of) (p q : qpt) : Prop := (gap u <= Qabs (qx p - qx q) \/ gap u <= Qabs (qy p - qy q))%Q.

Definition sized_pt (p : qpt) : Prop := sized (qx p) /\ sized (qy p).
Definition sized_seg (g : qseg) : Prop := sized_pt (q_start g) /\ sized_pt (q_end g).

(** A loop which can be written and read again: a circle, or two and more segments one
    after the other, each a line or an arc; it comes near its first and its second point
    only with its first segment and with its last. *)
Definition line_or_arc (g : qseg) : Prop := (q_ang g == 0 \/ 11 # 1000 <= Qabs (q_ang g) <= 35998 # 100)%Q.
Definition loop_fit (u : unit_of) (l : qloop) : Prop :=
  Forall sized_seg l /\
  ((exists s, l = [s] /\ q_ang s = 360%Q) \/
   (exists s mid z, l = s :: mid ++ [z] /\ joined (q_start s) l /\ Forall line_or_arc l /\
      Forall (fun g => apart u (q_end g) (q_start s)) mid /\
      Forall (fun g => apart u (q_start g) (q_end s)) (tl mid ++ match mid with [] => [] | _ => [z] end))).

(** The winding is not changed by rounding. *)
Definition steady (ccw : qloop -> bool) (u : unit_of) (l : qloop) (b : bool) : Prop :=
  forall l', near_loop u l l' -> ccw l' = b.

(** So for all loops but the last: the first goes counterclockwise, the others clockwise
    unless they are circles. *)
Definition turns_kept (ccw : qloop -> bool) (u : unit_of) (ws : list qloop) : Prop :=
  forall a w b, ws = a ++ w :: b -> b <> [] -> (a = [] -> steady ccw u w true) /\ (a <> [] -> steady ccw u w false \/ length w = 1%nat).

(** ** The lines of a section *)

(** A number without exponent, and a line which begins with the number of a loop, two
    coordinates and an angle. *)
Definition plain_number (t : str) : Prop :=
  exists sg ip fr, (sg = [] \/ sg = ["-"%char]) /\ ip <> [] /\ Forall isdig ip /\ Forall isdig fr /\
    (t = sg ++ ip \/ t = sg ++ ip ++ "."%char :: fr).
Definition line_says (u : unit_of) (v : version) (line : str) (r : orec) : Prop :=
  exists b fs ti tx ty ta x y, laid_out b (Bare ti :: Bare tx :: Bare ty :: Bare ta :: fs) line /\
    signed_numeral ti (or_idx r) /\ -2147483648 <= or_idx r <= 2147483647 /\ plain_number tx /\ plain_number ty /\ plain_number ta /\
    stream_num tx = Some x /\ to_mm u v x = Some (qx (or_pt r)) /\
    stream_num ty = Some y /\ to_mm u v y = Some (qy (or_pt r)) /\ stream_num ta = Some (or_ang r).

(** Blank lines say nothing; the sign of a comment makes no difference. *)
Inductive lines_say (u : unit_of) (v : version) : list str -> list orec -> Prop :=
| say_end : lines_say u v [] []
| say_blank raw l rs : Forall isspc raw -> ~ In nl raw -> lines_say u v l rs -> lines_say u v (raw :: l) rs
| say_point raw line l r rs : ~ In nl raw -> (forall t, raw <> hash :: t) -> trimmed_of raw line ->
    line_says u v line r -> lines_say u v l rs -> lines_say u v (raw :: l) (r :: rs)
| say_comment raw line l r rs : ~ In nl raw -> trimmed_of raw line -> line_says u v line r -> lines_say u v l rs ->
    lines_say u v ((hash :: raw) :: l) (r :: rs).
