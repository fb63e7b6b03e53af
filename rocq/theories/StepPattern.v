(** StepPattern.v - model of dtw/stepPattern.py and dtw/mvm.py *)
From Verif Require Import Base Num.
Open Scope string_scope.
Open Scope list_scope.
Open Scope Z_scope.

Section StepPattern.
Context {N : Num}.

Local Notation "# z" := (@ofZ N z) (at level 1, z at level 1, format "# z").
Local Notation "a // b" := (@div N (ofZ a) (ofZ b)) (at level 40).

(** One row of [mx]: pattern id, step in query index, step in reference index,
    weight (or -1 for the starting point).  dtw/stepPattern.py:549-554.
    All four are doubles (numpy.array(mx, dtype=numpy.double), line 275). *)
Record row := Row { c0 : N; c1 : N; c2 : N; c3 : N }.

(** class StepPattern, dtw/stepPattern.py:274-276 (__init__).
    Simplified: [mx] always has four columns. *)
Record steppat := StepPat { mx : list row; hint : string }.

(** dtw/stepPattern.py:278-280 *)
Definition get_n_rows (s : steppat) : nat := List.length (mx s).

(** dtw/stepPattern.py:282-284: int(numpy.max(self.mx[:, 0])) *)
Definition get_n_patterns (s : steppat) : out Z :=
  v <- np_max (List.map c0 (mx s)) ;;
  match trunc v with
  | Some z => Ok z
  | None => if isnan v then Raise (ValueError "cannot convert float NaN to integer")
            else Raise OverflowError
  end.

(** dtw/stepPattern.py:286-296: columns [0,2,1,3]; hints N and M exchanged *)
Definition T_row (r : row) : row := Row (c0 r) (c2 r) (c1 r) (c3 r).
Definition T_hint (h : string) : string :=
  if String.eqb h "N" then "M" else if String.eqb h "M" then "N" else h.
Definition T (s : steppat) : steppat :=
  StepPat (List.map T_row (mx s)) (T_hint (hint s)).

(** dtw/stepPattern.py:362-366: rows of rule sn, columns 1.., reversed *)
Definition extractpattern (s : steppat) (sn : Z) : list (N * N * N) :=
  List.rev (List.map (fun r => (c1 r, c2 r, c3 r))
                     (List.filter (fun r => eqb (c0 r) (ofZ sn)) (mx s))).

(** dtw/stepPattern.py:368-372: cast the whole matrix to int32 (truncation),
    keep the rows whose weight is then -1, columns 1 and 2 *)
Definition mkDirDeltas (s : steppat) : list (Z * Z) :=
  List.map (fun r => (np_int32 (c1 r), np_int32 (c2 r)))
           (List.filter (fun r => np_int32 (c3 r) =? -1) (mx s)).

(** dtw/stepPattern.py:374-377: columns [0,2,1,3], transposed and flattened, i.e.
    all ids, then all reference steps, then all query steps, then all weights *)
Definition get_p (s : steppat) : list N :=
  List.map c0 (mx s) ++ List.map c2 (mx s) ++ List.map c1 (mx s) ++ List.map c3 (mx s).

(** dtw/stepPattern.py:382-387: flat argument list -> rows of four *)
Fixpoint c_rows (l : list N) : out (list row) :=
  match l with
  | nil => Ok nil
  | a :: b :: c :: d :: l' => r <- c_rows l' ;; Ok (Row a b c d :: r)
  | _ => Raise (ValueError "Internal error in _c constructor")
  end.

(** StepPattern(_c(...), hint).  All uses have a multiple of four entries, so the
    error branch (an empty pattern here) is not taken; see tables_wellformed in
    the proofs. *)
Definition tbl (l : list N) (h : string) : steppat :=
  StepPat (match c_rows l with Ok r => r | _ => nil end) h.

(** ** The Rabiner-Juang construction *)

(** numpy.cumsum: running sums *)
Fixpoint cumsum_from (acc : N) (l : list N) : list N :=
  match l with
  | nil => nil
  | x :: xs => let a := add acc x in a :: cumsum_from a xs
  end.
Definition cumsum (l : list N) : list N :=
  match l with nil => nil | x :: xs => x :: cumsum_from x xs end.

(** numpy.mean of a short 1-D array *)
Definition np_mean (l : list N) : N := div (np_sum l) (ofZ (Z.of_nat (List.length l))).

Fixpoint zip_with {A B C} (f : A -> B -> C) (l : list A) (l' : list B) : list C :=
  match l, l' with
  | x :: xs, y :: ys => f x y :: zip_with f xs ys
  | _, _ => nil
  end.

Definition zip_rows (pid : Z) (ni nj w : list N) : list row :=
  zip_with (fun a bc => Row (ofZ pid) a (fst bc) (snd bc)) ni (zip_with pair nj w).

(** class _P, dtw/stepPattern.py:400-443.  [steps] are the arguments of the chained
    .step(di,dj) calls (lines 408-411); the constructor starts both lists with a
    0 (lines 405-406).  get() is lines 413-443. *)
Definition P_get (pid : Z) (subtype : string) (smoothing : bool)
           (steps : list (Z * Z)) : out (list row) :=
  let ia := ofZ 0 :: List.map (fun s => ofZ (fst s)) steps in
  let ja := ofZ 0 :: List.map (fun s => ofZ (snd s)) steps in
  let si := cumsum ia in
  let sj := cumsum ja in
  mi <- np_max si ;;
  mj <- np_max sj ;;
  let ni := List.map (fun x => sub mi x) si in
  let nj := List.map (fun x => sub mj x) sj in
  w <- (if String.eqb subtype "a" then Ok (zip_with np_minimum ia ja)
        else if String.eqb subtype "b" then Ok (zip_with np_maximum ia ja)
        else if String.eqb subtype "c" then Ok ia
        else if String.eqb subtype "d" then Ok (zip_with add ia ja)
        else Raise (ValueError "Unsupported subtype")) ;;
  let w1 := if smoothing
            then List.map (fun _ => np_mean (List.tl w)) (List.tl w)
            else List.tl w in
  let w2 := ofZ (-1) :: w1 in
  Ok (zip_rows pid ni nj w2).

Fixpoint vstack (l : list (out (list row))) : out (list row) :=
  match l with
  | nil => Ok nil
  | x :: xs => a <- x ;; b <- vstack xs ;; Ok (a ++ b)
  end.

(** The seven families, dtw/stepPattern.py:472-531, as the lists of chained steps.
    Production number k is the k-th element of the list (pids are 1,2,... in
    order in the source). *)
Definition RJtypeI : list (list (Z * Z)) :=      (* 472-476 *)
  [ [(1,0)]; [(1,1)]; [(0,1)] ].
Definition RJtypeII : list (list (Z * Z)) :=     (* 479-483 *)
  [ [(1,1);(1,0)]; [(1,1)]; [(1,1);(0,1)] ].
Definition RJtypeIII : list (list (Z * Z)) :=    (* 486-490 *)
  [ [(2,1)]; [(1,1)]; [(1,2)] ].
Definition RJtypeIV : list (list (Z * Z)) :=     (* 493-499 *)
  [ [(1,1);(1,0)]; [(1,2);(1,0)]; [(1,1)]; [(1,2)] ].
Definition RJtypeV : list (list (Z * Z)) :=      (* 502-509 *)
  [ [(1,1);(1,0);(1,0)]; [(1,1);(1,0)]; [(1,1)]; [(1,1);(0,1)]; [(1,1);(0,1);(0,1)] ].
Definition RJtypeVI : list (list (Z * Z)) :=     (* 512-517 *)
  [ [(1,1);(1,1);(1,0)]; [(1,1)]; [(1,1);(1,1);(0,1)] ].
Definition RJtypeVII : list (list (Z * Z)) :=    (* 520-531 *)
  [ [(1,1);(1,0);(1,0)]; [(1,2);(1,0);(1,0)]; [(1,3);(1,0);(1,0)];
    [(1,1);(1,0)]; [(1,2);(1,0)]; [(1,3);(1,0)];
    [(1,1)]; [(1,2)]; [(1,3)] ].

Fixpoint number_from {A} (k : Z) (l : list A) : list (Z * A) :=
  match l with nil => nil | x :: xs => (k, x) :: number_from (k + 1) xs end.

Definition RJ_build (fam : list (list (Z * Z))) (s : string) (m : bool) : out (list row) :=
  vstack (List.map (fun ps => P_get (fst ps) s m (snd ps)) (number_from 1 fam)).

(** dtw/stepPattern.py:446-469.  An unknown [ptype] selects a zero-argument lambda
    that is then called with two arguments: TypeError. *)
Definition rabinerJuangStepPattern (ptype : Z) (slope_weighting : string)
           (smoothed : bool) : out steppat :=
  fam <- (match ptype with
          | 1 => Ok RJtypeI | 2 => Ok RJtypeII | 3 => Ok RJtypeIII
          | 4 => Ok RJtypeIV | 5 => Ok RJtypeV | 6 => Ok RJtypeVI
          | 7 => Ok RJtypeVII | _ => Raise TypeError
          end) ;;
  r <- RJ_build fam slope_weighting smoothed ;;
  let norm := if String.eqb slope_weighting "c" then "N"
              else if String.eqb slope_weighting "d" then "N+M" else "NA" in
  Ok (StepPat r norm).

(** ** dtw/mvm.py:102-111  mvmStepPattern(elasticity).
    pn = repeat(arange(size)+1, 2); dx = tile([1,0], size); dy = pn*dx;
    w = tile([-1,1], size): rows (k,1,k,-1), (k,0,0,1) for k = 1..size. *)
Fixpoint mvm_rows (k : Z) (size : nat) : list row :=
  match size with
  | O => nil
  | Datatypes.S s =>
      Row (ofZ k) (ofZ 1) (ofZ (k * 1)) (ofZ (-1)) ::
      Row (ofZ k) (ofZ 0) (ofZ (k * 0)) (ofZ 1) :: mvm_rows (k + 1) s
  end.
Definition mvmStepPattern (elasticity : nat) : steppat :=
  StepPat (mvm_rows 1 elasticity) "N".

(** ** Predefined tables *)

(** dtw/stepPattern.py:562-569  symmetric1 *)
Definition symmetric1 : steppat := tbl [
    #1; #1; #1; #(-1);
    #1; #0; #0; #1;
    #2; #0; #1; #(-1);
    #2; #0; #0; #1;
    #3; #1; #0; #(-1);
    #3; #0; #0; #1
  ] "NA".

(** dtw/stepPattern.py:573-580  symmetric2 *)
Definition symmetric2 : steppat := tbl [
    #1; #1; #1; #(-1);
    #1; #0; #0; #2;
    #2; #0; #1; #(-1);
    #2; #0; #0; #1;
    #3; #1; #0; #(-1);
    #3; #0; #0; #1
  ] "N+M".

(** dtw/stepPattern.py:584-591  asymmetric *)
Definition asymmetric : steppat := tbl [
    #1; #1; #0; #(-1);
    #1; #0; #0; #1;
    #2; #1; #1; #(-1);
    #2; #0; #0; #1;
    #3; #1; #2; #(-1);
    #3; #0; #0; #1
  ] "N".

(** dtw/stepPattern.py:600-604  _symmetricVelichkoZagoruyko *)
Definition p_symmetricVelichkoZagoruyko : steppat := tbl [
    #1; #0; #1; #(-1);
    #2; #1; #1; #(-1);
    #2; #0; #0; (-1001) // 1000;
    #3; #1; #0; #(-1)
  ] "NA".

(** dtw/stepPattern.py:614-625  _asymmetricItakura *)
Definition p_asymmetricItakura : steppat := tbl [
    #1; #1; #2; #(-1);
    #1; #0; #0; #1;
    #2; #1; #1; #(-1);
    #2; #0; #0; #1;
    #3; #2; #1; #(-1);
    #3; #1; #0; #1;
    #3; #0; #0; #1;
    #4; #2; #2; #(-1);
    #4; #1; #0; #1;
    #4; #0; #0; #1
  ] "NA".

(** dtw/stepPattern.py:639  symmetricP0 *)
Definition symmetricP0 : steppat := symmetric2.

(** dtw/stepPattern.py:642-649  asymmetricP0 *)
Definition asymmetricP0 : steppat := tbl [
    #1; #0; #1; #(-1);
    #1; #0; #0; #0;
    #2; #1; #1; #(-1);
    #2; #0; #0; #1;
    #3; #1; #0; #(-1);
    #3; #0; #0; #1
  ] "N".

(** dtw/stepPattern.py:652-658  _asymmetricP0b *)
Definition p_asymmetricP0b : steppat := tbl [
    #1; #0; #1; #(-1);
    #2; #1; #1; #(-1);
    #2; #0; #0; #1;
    #3; #1; #0; #(-1);
    #3; #0; #0; #1
  ] "N".

(** dtw/stepPattern.py:661-678  symmetricP05 *)
Definition symmetricP05 : steppat := tbl [
    #1; #1; #3; #(-1);
    #1; #0; #2; #2;
    #1; #0; #1; #1;
    #1; #0; #0; #1;
    #2; #1; #2; #(-1);
    #2; #0; #1; #2;
    #2; #0; #0; #1;
    #3; #1; #1; #(-1);
    #3; #0; #0; #2;
    #4; #2; #1; #(-1);
    #4; #1; #0; #2;
    #4; #0; #0; #1;
    #5; #3; #1; #(-1);
    #5; #2; #0; #2;
    #5; #1; #0; #1;
    #5; #0; #0; #1
  ] "N+M".

(** dtw/stepPattern.py:680-697  asymmetricP05 *)
Definition asymmetricP05 : steppat := tbl [
    #1; #1; #3; #(-1);
    #1; #0; #2; 1 // 3;
    #1; #0; #1; 1 // 3;
    #1; #0; #0; 1 // 3;
    #2; #1; #2; #(-1);
    #2; #0; #1; 1 // 2;
    #2; #0; #0; 1 // 2;
    #3; #1; #1; #(-1);
    #3; #0; #0; #1;
    #4; #2; #1; #(-1);
    #4; #1; #0; #1;
    #4; #0; #0; #1;
    #5; #3; #1; #(-1);
    #5; #2; #0; #1;
    #5; #1; #0; #1;
    #5; #0; #0; #1
  ] "N".

(** dtw/stepPattern.py:702-711  symmetricP1 *)
Definition symmetricP1 : steppat := tbl [
    #1; #1; #2; #(-1);
    #1; #0; #1; #2;
    #1; #0; #0; #1;
    #2; #1; #1; #(-1);
    #2; #0; #0; #2;
    #3; #2; #1; #(-1);
    #3; #1; #0; #2;
    #3; #0; #0; #1
  ] "N+M".

(** dtw/stepPattern.py:713-722  asymmetricP1 *)
Definition asymmetricP1 : steppat := tbl [
    #1; #1; #2; #(-1);
    #1; #0; #1; 1 // 2;
    #1; #0; #0; 1 // 2;
    #2; #1; #1; #(-1);
    #2; #0; #0; #1;
    #3; #2; #1; #(-1);
    #3; #1; #0; #1;
    #3; #0; #0; #1
  ] "N".

(** dtw/stepPattern.py:725-736  symmetricP2 *)
Definition symmetricP2 : steppat := tbl [
    #1; #2; #3; #(-1);
    #1; #1; #2; #2;
    #1; #0; #1; #2;
    #1; #0; #0; #1;
    #2; #1; #1; #(-1);
    #2; #0; #0; #2;
    #3; #3; #2; #(-1);
    #3; #2; #1; #2;
    #3; #1; #0; #2;
    #3; #0; #0; #1
  ] "N+M".

(** dtw/stepPattern.py:738-749  asymmetricP2 *)
Definition asymmetricP2 : steppat := tbl [
    #1; #2; #3; #(-1);
    #1; #1; #2; 2 // 3;
    #1; #0; #1; 2 // 3;
    #1; #0; #0; 2 // 3;
    #2; #1; #1; #(-1);
    #2; #0; #0; #1;
    #3; #3; #2; #(-1);
    #3; #2; #1; #1;
    #3; #1; #0; #1;
    #3; #0; #0; #1
  ] "N".

(** dtw/stepPattern.py:785-794  typeIa *)
Definition typeIa : steppat := tbl [
    #1; #2; #1; #(-1);
    #1; #1; #0; #1;
    #1; #0; #0; #0;
    #2; #1; #1; #(-1);
    #2; #0; #0; #1;
    #3; #1; #2; #(-1);
    #3; #0; #1; #1;
    #3; #0; #0; #0
  ] "NA".

(** dtw/stepPattern.py:796-805  typeIb *)
Definition typeIb : steppat := tbl [
    #1; #2; #1; #(-1);
    #1; #1; #0; #1;
    #1; #0; #0; #1;
    #2; #1; #1; #(-1);
    #2; #0; #0; #1;
    #3; #1; #2; #(-1);
    #3; #0; #1; #1;
    #3; #0; #0; #1
  ] "NA".

(** dtw/stepPattern.py:807-816  typeIc *)
Definition typeIc : steppat := tbl [
    #1; #2; #1; #(-1);
    #1; #1; #0; #1;
    #1; #0; #0; #1;
    #2; #1; #1; #(-1);
    #2; #0; #0; #1;
    #3; #1; #2; #(-1);
    #3; #0; #1; #1;
    #3; #0; #0; #0
  ] "N".

(** dtw/stepPattern.py:818-827  typeId *)
Definition typeId : steppat := tbl [
    #1; #2; #1; #(-1);
    #1; #1; #0; #2;
    #1; #0; #0; #1;
    #2; #1; #1; #(-1);
    #2; #0; #0; #2;
    #3; #1; #2; #(-1);
    #3; #0; #1; #2;
    #3; #0; #0; #1
  ] "N+M".

(** dtw/stepPattern.py:832-841  typeIas *)
Definition typeIas : steppat := tbl [
    #1; #2; #1; #(-1);
    #1; #1; #0; 1 // 2;
    #1; #0; #0; 1 // 2;
    #2; #1; #1; #(-1);
    #2; #0; #0; #1;
    #3; #1; #2; #(-1);
    #3; #0; #1; 1 // 2;
    #3; #0; #0; 1 // 2
  ] "NA".

(** dtw/stepPattern.py:843-852  typeIbs *)
Definition typeIbs : steppat := tbl [
    #1; #2; #1; #(-1);
    #1; #1; #0; #1;
    #1; #0; #0; #1;
    #2; #1; #1; #(-1);
    #2; #0; #0; #1;
    #3; #1; #2; #(-1);
    #3; #0; #1; #1;
    #3; #0; #0; #1
  ] "NA".

(** dtw/stepPattern.py:854-863  typeIcs *)
Definition typeIcs : steppat := tbl [
    #1; #2; #1; #(-1);
    #1; #1; #0; #1;
    #1; #0; #0; #1;
    #2; #1; #1; #(-1);
    #2; #0; #0; #1;
    #3; #1; #2; #(-1);
    #3; #0; #1; 1 // 2;
    #3; #0; #0; 1 // 2
  ] "N".

(** dtw/stepPattern.py:865-874  typeIds *)
Definition typeIds : steppat := tbl [
    #1; #2; #1; #(-1);
    #1; #1; #0; 3 // 2;
    #1; #0; #0; 3 // 2;
    #2; #1; #1; #(-1);
    #2; #0; #0; #2;
    #3; #1; #2; #(-1);
    #3; #0; #1; 3 // 2;
    #3; #0; #0; 3 // 2
  ] "N+M".

(** dtw/stepPattern.py:878-885  typeIIa *)
Definition typeIIa : steppat := tbl [
    #1; #1; #1; #(-1);
    #1; #0; #0; #1;
    #2; #1; #2; #(-1);
    #2; #0; #0; #1;
    #3; #2; #1; #(-1);
    #3; #0; #0; #1
  ] "NA".

(** dtw/stepPattern.py:887-894  typeIIb *)
Definition typeIIb : steppat := tbl [
    #1; #1; #1; #(-1);
    #1; #0; #0; #1;
    #2; #1; #2; #(-1);
    #2; #0; #0; #2;
    #3; #2; #1; #(-1);
    #3; #0; #0; #2
  ] "NA".

(** dtw/stepPattern.py:896-903  typeIIc *)
Definition typeIIc : steppat := tbl [
    #1; #1; #1; #(-1);
    #1; #0; #0; #1;
    #2; #1; #2; #(-1);
    #2; #0; #0; #1;
    #3; #2; #1; #(-1);
    #3; #0; #0; #2
  ] "N".

(** dtw/stepPattern.py:905-912  typeIId *)
Definition typeIId : steppat := tbl [
    #1; #1; #1; #(-1);
    #1; #0; #0; #2;
    #2; #1; #2; #(-1);
    #2; #0; #0; #3;
    #3; #2; #1; #(-1);
    #3; #0; #0; #3
  ] "N+M".

(** dtw/stepPattern.py:918-929  typeIIIc *)
Definition typeIIIc : steppat := tbl [
    #1; #1; #2; #(-1);
    #1; #0; #0; #1;
    #2; #1; #1; #(-1);
    #2; #0; #0; #1;
    #3; #2; #1; #(-1);
    #3; #1; #0; #1;
    #3; #0; #0; #1;
    #4; #2; #2; #(-1);
    #4; #1; #0; #1;
    #4; #0; #0; #1
  ] "N".

(** dtw/stepPattern.py:935-963  typeIVc *)
Definition typeIVc : steppat := tbl [
    #1; #1; #1; #(-1);
    #1; #0; #0; #1;
    #2; #1; #2; #(-1);
    #2; #0; #0; #1;
    #3; #1; #3; #(-1);
    #3; #0; #0; #1;
    #4; #2; #1; #(-1);
    #4; #1; #0; #1;
    #4; #0; #0; #1;
    #5; #2; #2; #(-1);
    #5; #1; #0; #1;
    #5; #0; #0; #1;
    #6; #2; #3; #(-1);
    #6; #1; #0; #1;
    #6; #0; #0; #1;
    #7; #3; #1; #(-1);
    #7; #2; #0; #1;
    #7; #1; #0; #1;
    #7; #0; #0; #1;
    #8; #3; #2; #(-1);
    #8; #2; #0; #1;
    #8; #1; #0; #1;
    #8; #0; #0; #1;
    #9; #3; #3; #(-1);
    #9; #2; #0; #1;
    #9; #1; #0; #1;
    #9; #0; #0; #1
  ] "N".

(** dtw/stepPattern.py:976-985  mori2006 *)
Definition mori2006 : steppat := tbl [
    #1; #2; #1; #(-1);
    #1; #1; #0; #2;
    #1; #0; #0; #1;
    #2; #1; #1; #(-1);
    #2; #0; #0; #3;
    #3; #1; #2; #(-1);
    #3; #0; #1; #3;
    #3; #0; #0; #3
  ] "M".

(** dtw/stepPattern.py:989-990  rigid *)
Definition rigid : steppat := tbl [
    #1; #1; #1; #(-1);
    #1; #0; #0; #1
  ] "N".

(** dtw/dtw.py:505-510 _canonicalizeStepPattern: getattr of a name in the module
    dtw.stepPattern.  Names that are not pattern objects (functions, classes,
    modules) have no [.hint] and fail with AttributeError at dtw/dtw.py:404, as do
    unknown names. *)
Definition pattern_table : list (string * steppat) :=
  [ ("symmetric1", symmetric1); ("symmetric2", symmetric2); ("asymmetric", asymmetric);
    ("_symmetricVelichkoZagoruyko", p_symmetricVelichkoZagoruyko);
    ("_asymmetricItakura", p_asymmetricItakura);
    ("symmetricP0", symmetricP0); ("asymmetricP0", asymmetricP0);
    ("_asymmetricP0b", p_asymmetricP0b);
    ("symmetricP05", symmetricP05); ("asymmetricP05", asymmetricP05);
    ("symmetricP1", symmetricP1); ("asymmetricP1", asymmetricP1);
    ("symmetricP2", symmetricP2); ("asymmetricP2", asymmetricP2);
    ("typeIa", typeIa); ("typeIb", typeIb); ("typeIc", typeIc); ("typeId", typeId);
    ("typeIas", typeIas); ("typeIbs", typeIbs); ("typeIcs", typeIcs); ("typeIds", typeIds);
    ("typeIIa", typeIIa); ("typeIIb", typeIIb); ("typeIIc", typeIIc); ("typeIId", typeIId);
    ("typeIIIc", typeIIIc); ("typeIVc", typeIVc);
    ("mori2006", mori2006); ("rigid", rigid) ].

Fixpoint lookup {A} (k : string) (l : list (string * A)) : option A :=
  match l with
  | nil => None
  | (k', v) :: l' => if String.eqb k k' then Some v else lookup k l'
  end.

End StepPattern.
Arguments row N : clear implicits.
Arguments steppat N : clear implicits.
