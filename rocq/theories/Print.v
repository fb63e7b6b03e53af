(** Print.v - model of the textual and graphical descriptions: StepPattern.__str__ and
    StepPattern.plot (dtw/stepPattern.py), DTW.__repr__ (dtw/dtw.py).

    Formatting a double with "{:2.2g}" is an argument here; see Format.v.
    Of plot(), the data handed to matplotlib is modelled (no colours, labels, ticks). *)
From Coq Require Import Ascii DecimalString.
From Verif Require Import Base Num StepPattern Window Core Backtrack Dtw.
Open Scope string_scope.
Open Scope list_scope.
Open Scope Z_scope.

(** "\n" *)
Definition nl : string := String "010"%char EmptyString.

(** str of a Python int *)
Definition show_int (z : Z) : string := NilZero.string_of_int (Z.to_int z).

(** f"{s:2}" for a string: left aligned, padded with blanks to width two *)
Definition pad2 (s : string) : string :=
  match String.length s with
  | O => append s "  "
  | S O => append s " "
  | _ => s
  end.

Section Print.
Context {N : Num}.
Variable fmt : N -> string.                      (* "{:2.2g}".format *)

(** int(v) *)
Definition py_int (v : N) : out Z :=
  match trunc v with
  | Some z => Ok z
  | None => if isnan v then Raise (ValueError "cannot convert float NaN to integer")
            else Raise OverflowError
  end.

(** dtw/stepPattern.py:310-311: "" for zero, otherwise minus the integer part *)
Definition offset (v : N) : out string :=
  if eqb v (ofZ 0) then Ok "" else z <- py_int v ;; Ok (show_int (- z)).

(** dtw/stepPattern.py:309-320: the text of one row *)
Definition str_row (r : N * N * N) : out string :=
  let '(di, dj, cc) := r in
  dis <- offset di ;;
  djs <- offset dj ;;
  let dijs := append "i" (append (pad2 dis) (append ",j" (pad2 djs))) in
  if eqb cc (ofZ (-1))
  then Ok (append " " (append "    g[" (append dijs "]")))
  else
    let ccs := if eqb cc (ofZ 1) then "    " else append (fmt cc) " *" in
    Ok (append " " (append "+" (append ccs (append " d[" (append dijs "]"))))).

(** dtw/stepPattern.py:302-321: the text of rule p; the rows are flipped twice *)
Definition str_rule (s : steppat N) (p : Z) : out string :=
  rows <- mapM str_row (List.rev (extractpattern s p)) ;;
  Ok (append (String.concat "" rows) (append " ," nl)).

(** dtw/stepPattern.py:298-326 __str__ *)
Definition str_pattern (s : steppat N) : out string :=
  np <- get_n_patterns s ;;
  body <- mapM (str_rule s) (List.map (fun k => Z.of_nat k) (seq 1 (Z.to_nat np))) ;;
  Ok (append "Step pattern recursion:" (append nl
     (append " g[i,j] = min(" (append nl
     (append (String.concat "" body)
     (append " ) " (append nl (append nl
     (append "Normalization hint: " (append (hint s) nl)))))))))).

(** What plot() draws for one rule: a curve (drawn with a line and with open circles)
    and, if the rule has more than one row, one label per segment. *)
Record drawn_rule := DrawnRule {
  dr_curve : list (N * N);
  dr_labels : list (string * (N * N))
}.

(** -v for a double *)
Definition neg (v : N) : N := mul (ofZ (-1)) v.

(** dtw/stepPattern.py:345-346: alpha*a + (1-alpha)*b, with alpha = 0.5 *)
Definition half : N := div (ofZ 1) (ofZ 2).
Definition midpoint (a b : N) : N := add (mul half a) (mul (sub (ofZ 1) half) b).

(** dtw/stepPattern.py:337-350: the body of the loop.  [fmt2] is "{:.2g}".format.
    The label positions are (-xx - fudge, -yy - fudge) with fudge 0. *)
Definition draw_rule (fmt2 : N -> string) (s : steppat N) (p : Z) : drawn_rule :=
  let rows := List.filter (fun r => eqb (c0 r) (ofZ p)) (mx s) in
  let curve := List.map (fun r => (neg (c1 r), neg (c2 r))) rows in
  let mids := zip_with (fun a b => (midpoint (c1 a) (c1 b), midpoint (c2 a) (c2 b)))
                       rows (tl rows) in
  DrawnRule curve
    (if Nat.eqb (List.length rows) 1 then []
     else zip_with (fun m b => (fmt2 (c3 b), (sub (neg (fst m)) (ofZ 0), sub (neg (snd m)) (ofZ 0))))
                   mids (tl rows)).

(** dtw/stepPattern.py:328-360 plot(): the curves, and the filled dots at the starting
    points (line 352-353) *)
Definition plot_pattern (fmt2 : N -> string) (s : steppat N)
  : out (list drawn_rule * list (N * N)) :=
  np <- get_n_patterns s ;;
  Ok (List.map (fun k => draw_rule fmt2 s (Z.of_nat k)) (seq 1 (Z.to_nat np)),
      List.map (fun r => (neg (c1 r), neg (c2 r)))
               (List.filter (fun r => eqb (c3 r) (ofZ (-1))) (mx s))).

End Print.

(** dtw/dtw.py:78-80 DTW.__repr__ *)
Definition repr_dtw {N : Num} (d : DTW N) : string :=
  append "DTW alignment object of size (query x reference): "
    (append (show_int (Z.of_nat (r_N d)))
    (append " x " (show_int (Z.of_nat (r_M d))))).
