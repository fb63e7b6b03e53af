(** FloatSpec.v - the same binary64 call with separate and with fused multiply-add (specification). *)
From Verif Require Import Base Num NumF NumFLaws StepPattern Window Core Backtrack Dtw Spec Api Tables Vocab Terms IntSpec Exact.
From Flocq Require Import BinarySingleNaN.
Open Scope string_scope.
Open Scope list_scope.
Open Scope nat_scope.

(** The built-in windows and functions of the user's. *)
Inductive fwindow :=
| FNoWindow
| FItakura
| FSakoeChiba (window_size : f64)
| FSlantedBand (window_size : f64)
| FUserWindow (f : Z -> Z -> Z -> Z -> bool).

(** The keyword arguments of dtw(). *)
Record fopts := mkFopts {
  f_pattern : ipattern; f_window : fwindow;
  f_keep_internals : bool; f_distance_only : bool; f_open_end : bool; f_open_begin : bool
}.

(** The same arguments, for arithmetic with ([fused]) or without contraction of a + w*x. *)
Definition f_opts (fused : bool) (o : fopts) : opts (double fused) :=
  mkOpts (match f_pattern o with
          | IName k => SPName k
          | ITable l h => SPObj (StepPat (table (productions l)) h)
          end)
         (match f_window o with
          | FNoWindow => WTNone
          | FItakura => WTName "itakura"
          | FSakoeChiba _ => WTName "sakoechiba"
          | FSlantedBand _ => WTName "slantedband"
          | FUserWindow f => WTFun (UserWin (fun i j n m _ => Ok (f i j n m)))
          end)
         (match f_window o with FSakoeChiba s | FSlantedBand s => [("window_size", (s : double fused))] | _ => [] end)
         (f_keep_internals o) (f_distance_only o) (f_open_end o) (f_open_begin o).

(** dtw(g, ...) for a C-ordered array of doubles *)
Definition f_dtw (fused : bool) (cdist : mat (double fused) -> mat (double fused) -> out (mat (double fused)))
  (g : mat f64) (o : fopts) : out (DTW (double fused)) :=
  dtw cdist (NdArray (Nd2 (g : mat (double fused))) true true) None (f_opts fused o).

(** Weights 0, 1 and 2 only. *)
Definition weights_012 (l : list wrule) : Prop :=
  forall r a, In r l -> In a (w_add r) -> In (snd a) [(0, 1); (1, 1); (2, 1)]%Z.
(** Every cost is NaN or at least 0 (possibly infinite). *)
Definition costs_nonneg_or_nan (g : mat f64) : Prop :=
  forall v, In v (dat g) -> is_nan v = true \/ @leb NumF (ofZ 0) v = true.

(** Two binary64 results that agree bit by bit. *)
Definition same_bits {a b : bool} (d : DTW (double a)) (d' : DTW (double b)) : Prop :=
  r_N d = r_N d' /\ r_M d = r_M d' /\ r_jmin d = r_jmin d' /\ r_map d = r_map d' /\
  r_directionMatrix d = r_directionMatrix d' /\
  (r_distance d : f64) = r_distance d' /\ (r_normalizedDistance d : f64) = r_normalizedDistance d' /\
  (r_costMatrix d : option (mat f64)) = r_costMatrix d'.
