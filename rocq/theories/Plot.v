(** Plot.v - model of dtw/dtwPlot.py (the data handed to matplotlib) and of the
    command line tool dtw/__main__.py.

    Not modelled: colours, labels, axes layout, extra keyword arguments forwarded to
    matplotlib, and matplotlib itself: each plotting function is modelled by the
    curves, segments and matrices it asks matplotlib to draw, in data coordinates. *)
From Verif Require Import Base Num StepPattern Window Core Backtrack Dtw Warp.
Open Scope string_scope.
Open Scope list_scope.
Open Scope Z_scope.

(** l[i] in Python: negative indices count from the end. *)
Definition py_get {A} (l : list A) (i : Z) : out A :=
  let k := if i <? 0 then i + Z.of_nat (List.length l) else i in
  if k <? 0 then Raise IndexError
  else match nth_error l (Z.to_nat k) with Some v => Ok v | None => Raise IndexError end.

(** The match_indices argument: omitted, a number, or a list of integers. *)
Inductive match_arg : Type :=
| MatchNone
| MatchCount (n : Z)
| MatchList (l : list Z).

Section Plot.
Context {N : Num}.

(** numpy.linspace(0, stop, num).astype(int); a negative num raises ValueError *)
Definition linspace_int (stop num : Z) : out (list Z) :=
  if num <? 0 then Raise (ValueError "Number of samples must be non-negative.")
  else Ok (List.map np_int64 (@linspace0 N stop num)).

(** dtw/dtwPlot.py:187-193 and 300-306: positions in index1/index2 of the matches that
    get a guide; [dflt] is the number used when match_indices is None (numpy.linspace
    defaults to 50 points; none in the three-way plot). *)
Definition guide_positions (dflt : option Z) (a : match_arg) (len : Z) : out (list Z) :=
  match a with
  | MatchNone => match dflt with Some k => linspace_int (len - 1) k | None => Ok [] end
  | MatchCount k => linspace_int (len - 1) k
  | MatchList l => Ok l
  end.

(** dtw/dtwPlot.py:155-161 and 271-277: the two series; if either is missing both are
    taken from the object. *)
Definition plot_series (d : DTW N) (xts yts : option (nd N)) : out (nd N * nd N) :=
  match xts, yts with
  | Some x, Some y => Ok (x, y)
  | _, _ =>
      match r_query d, r_reference d with
      | Some x, Some y => Ok (x, y)
      | _, _ => Raise (ValueError "Original timeseries are required")
      end
  end.

(** dtw/dtwPlot.py:163-164: shape[1] != 1.  Arrays with fewer dimensions have no
    shape[1].  Simplified: arrays of three or more dimensions raise ValueError. *)
Definition one_column (s : nd N) : out (list N) :=
  match s with
  | Nd2 m => if (nc m =? 1)%nat then Ok (dat m)
             else Raise (ValueError "Only single-variate timeseries can be plotted in the two-way style")
  | NdMore _ => Raise (ValueError "Only single-variate timeseries can be plotted in the two-way style")
  | _ => Raise IndexError
  end.

(** A polyline through (k, l[k]), k = 0, 1, ... *)
Definition plot_line (l : list N) : list (Z * N) := combine (arange (Z.of_nat (List.length l))) l.

Record twoway := mkTwoway {
  tw_query : list (Z * N);                        (* ax.plot(xtimes, xts) *)
  tw_reference : list (Z * N);                    (* ax.plot(ytimes, yts - offset) *)
  tw_guides : list ((Z * N) * (Z * N));           (* the LineCollection *)
  tw_right_axis : option N                        (* shift of the right axis, if any *)
}.

(** -x, as (-1) * x (which is exact in binary64, signs of zeros included) *)
Definition neg (x : N) : N := mul (ofZ (-1)) x.

(** dtw/dtwPlot.py:90-203 *)
Definition dtwPlotTwoWay (d : DTW N) (xts yts : option (nd N)) (offset : N) (a : match_arg) : out twoway :=
  '(x, y) <- plot_series d xts yts ;;
  xs <- one_column x ;;
  ys <- one_column y ;;
  let off := neg offset in
  match r_map d with
  | None => Raise AttributeError
  | Some mp =>
      idx <- guide_positions (Some 50) a (Z.of_nat (List.length (index1 mp))) ;;
      g <- mapM (fun i =>
             i1 <- py_get (index1 mp) i ;;
             xv <- py_get xs i1 ;;
             i2 <- py_get (index2 mp) i ;;
             yv <- py_get ys i2 ;;
             Ok ((i1, xv), (i2, add (neg off) yv))) idx ;;
      Ok (mkTwoway (plot_line xs) (plot_line (List.map (fun v => sub v off) ys)) g
            (if eqb off (ofZ 0) then None else Some off))
  end.

Record threeway := mkThreeway {
  th_query : nd N; th_reference : nd N;           (* marginal plots *)
  th_curve : list (Z * Z);                        (* ax.plot(index1, index2) *)
  th_guides : list ((Z * Z) * (Z * Z))
}.

(** dtw/dtwPlot.py:206-318 *)
Definition dtwPlotThreeWay (d : DTW N) (xts yts : option (nd N)) (a : match_arg) : out threeway :=
  '(x, y) <- plot_series d xts yts ;;
  match r_map d with
  | None => Raise AttributeError
  | Some mp =>
      idx <- guide_positions None a (Z.of_nat (List.length (index1 mp))) ;;
      g <- mapM (fun i =>
             i1 <- py_get (index1 mp) i ;;
             i2 <- py_get (index2 mp) i ;;
             Ok [((i1, 0), (i1, i2)); ((0, i2), (i1, i2))]) idx ;;
      Ok (mkThreeway x y (combine (index1 mp) (index2 mp)) (List.concat g))
  end.

Record density := mkDensity {
  de_cost : mat N;                                (* the image *)
  de_curve : list (Z * Z)
}.

(** dtw/dtwPlot.py:387-397: numpy.indices, then elementwise division *)
Definition normalize_cells (norm : string) (cm : mat N) : out (mat N) :=
  let by_cell (f : Z -> Z -> Z) :=
    Mat (nr cm) (nc cm)
        (zip_with (fun v ij => div v (ofZ (f (Z.of_nat (fst ij)) (Z.of_nat (snd ij)))))
                  (dat cm) (indices (nr cm) (nc cm))) in
  if String.eqb norm "NA" then Raise (ValueError "Step pattern has no normalization")
  else if String.eqb norm "N" then Ok (by_cell (fun row _ => row + 1))
  else if String.eqb norm "N+M" then Ok (by_cell (fun row col => row + col + 2))
  else if String.eqb norm "M" then Ok (by_cell (fun _ col => col + 1))
  else Ok cm.

(** dtw/dtwPlot.py:321-413 *)
Definition dtwPlotDensity (d : DTW N) (normalize : bool) : out density :=
  match r_costMatrix d with
  | None => Raise (ValueError "dtwPlotDensity requires dtw internals (set keep.internals=True on dtw() call)")
  | Some cm =>
      cm' <- (if normalize then normalize_cells (hint (r_stepPattern d)) cm else Ok cm) ;;
      match r_map d with
      | None => Raise AttributeError
      | Some mp => Ok (mkDensity cm' (combine (index1 mp) (index2 mp)))
      end
  end.

(** dtw/dtwPlot.py:79-87 *)
Definition dtwPlotAlignment (d : DTW N) : out (list (Z * Z)) :=
  match r_map d with
  | None => Raise AttributeError
  | Some mp => Ok (combine (index1 mp) (index2 mp))
  end.

(** The keyword arguments of the four plots (each uses its own). *)
Record plot_args := mkPlotArgs {
  a_xts : option (nd N); a_yts : option (nd N);
  a_offset : N; a_match : match_arg; a_normalize : bool
}.
Inductive drawing : Type :=
| DrawAlignment (c : list (Z * Z))
| DrawTwoWay (t : twoway)
| DrawThreeWay (t : threeway)
| DrawDensity (t : density).

(** dtw/dtwPlot.py:24-76, and DTW.plot (dtw/dtw.py:84-127), which forwards to it *)
Definition dtwPlot (d : DTW N) (type : string) (a : plot_args) : out drawing :=
  if String.eqb type "alignment" then c <- dtwPlotAlignment d ;; Ok (DrawAlignment c)
  else if String.eqb type "twoway" then
    t <- dtwPlotTwoWay d (a_xts a) (a_yts a) (a_offset a) (a_match a) ;; Ok (DrawTwoWay t)
  else if String.eqb type "threeway" then
    t <- dtwPlotThreeWay d (a_xts a) (a_yts a) (a_match a) ;; Ok (DrawThreeWay t)
  else if String.eqb type "density" then
    t <- dtwPlotDensity d (a_normalize a) ;; Ok (DrawDensity t)
  else Raise (ValueError ("Unknown plot type: " ++ type)%string).

(** dtw/__main__.py:10-27 main2, from the arrays read by numpy.genfromtxt to the values
    printed (normalized distance, distance, the rows of the warping path); the step
    pattern is always a name.  Not modelled: file parsing; the text is made in Format.v. *)
Definition main2 (euclidean : mat N -> mat N -> out (mat N)) (query reference : ndarray N) (step_pattern : string)
  : out (N * N * list Z * list Z) :=
  al <- dtw euclidean query (Some reference) (mkOpts (SPName step_pattern) WTNone [] false false false false) ;;
  match r_map al with
  | None => Raise AttributeError
  | Some mp => Ok (r_normalizedDistance al, r_distance al, index1 mp, index2 mp)
  end.

End Plot.
Arguments twoway N : clear implicits.
Arguments threeway N : clear implicits.
Arguments density N : clear implicits.
Arguments drawing N : clear implicits.
Arguments plot_args N : clear implicits.
