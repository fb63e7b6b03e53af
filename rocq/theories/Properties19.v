(** Properties19.v - C68: the weak triangle inequality.

    Only theorem statements, each closed by a lemma proved elsewhere, and concrete cases
    that meet their hypotheses.  See Properties1.v for the arithmetic [N] and [NumLaws]. *)
From Coq Require Import QArith Qcanon.
From Verif Require Import Base Num StepPattern Window Core Backtrack Dtw Spec Api Tables Vocab Terms.
From Verif Require Import NumQ NumQLaws NumF NumFLaws.
From Verif Require Import SeriesSpec Thm23 TriSpec Tri Tri2 Examples Examples7 Examples8 Examples17.
Open Scope string_scope.
Open Scope list_scope.
Open Scope nat_scope.

(** C68: local costs that obey the triangle inequality: the distance of the outer pair is at most the two other
    distances, each multiplied by the length of the series that does not take part in it. *)
Theorem C68_weak_triangle : forall nm sp cdist1 x1 y1 o1 xy d1 cdist2 x2 y2 o2 yz d2 cdist x y o xz w,
  In nm ["symmetric1"; "symmetric2"; "symmetricP0"] -> lookup nm pattern_table = Some sp ->
  costs_of cdist1 x1 y1 xy -> dtw cdist1 x1 y1 o1 = Ok d1 -> r_stepPattern d1 = sp ->
  o_open_begin o1 = false -> o_open_end o1 = false ->
  costs_of cdist2 x2 y2 yz -> dtw cdist2 x2 y2 o2 = Ok d2 -> r_stepPattern d2 = sp ->
  o_open_begin o2 = false -> o_open_end o2 = false ->
  costs_of cdist x y xz -> native_array x y -> pattern_of (o_step_pattern o) sp -> window_of (o_window_type o) w ->
  window_total w (o_window_args o) (nr xz) (nc xz) -> size_ok (nr xz) (nc xz) ->
  o_open_begin o = false -> o_open_end o = false ->
  triangle xy yz xz ->
  windows_compose (r_windowFunction d1) (r_windowArgs d1) (r_windowFunction d2) (r_windowArgs d2) w (o_window_args o) (nr xy) (nc xy) (nc yz) ->
  exists d v1 v2 v, dtw cdist x y o = Ok d /\
    r_distance d1 = XFin v1 /\ r_distance d2 = XFin v2 /\ r_distance d = XFin v /\
    (v <= qc_ofZ (Z.of_nat (nc xz)) * v1 + qc_ofZ (Z.of_nat (nr xz)) * v2)%Qc.
Proof. exact weak_triangle. Qed.
Print Assumptions C68_weak_triangle.

(** C68: three series compared sample by sample by a function that obeys the triangle inequality. *)
Theorem C68_weak_triangle_series : forall nm (cdist : mat NumQ -> mat NumQ -> out (mat NumQ)) (f : list NumQ -> list NumQ -> NumQ) (x y z : ndarray NumQ)
  (xm ym zm : mat NumQ) (o : opts NumQ) d1 d2,
  In nm ["symmetric1"; "symmetric2"; "symmetricP0"] -> o_step_pattern o = SPName nm -> o_window_type o = WTNone ->
  o_open_begin o = false -> o_open_end o = false ->
  entrywise cdist f ->
  matrix_of (nd_val x) = Some xm -> matrix_of (nd_val y) = Some ym -> matrix_of (nd_val z) = Some zm ->
  wf_mat xm -> wf_mat ym -> wf_mat zm -> nc ym = nc xm -> nc zm = nc xm -> size_ok (nr xm) (nr zm) ->
  (forall i j k, i < nr xm -> j < nr ym -> k < nr zm ->
     exists a b c : Qc, f (sample xm i) (sample ym j) = XFin a /\ f (sample ym j) (sample zm k) = XFin b /\
       f (sample xm i) (sample zm k) = XFin c /\ (0 <= a)%Qc /\ (0 <= b)%Qc /\ (c <= a + b)%Qc) ->
  dtw cdist x (Some y) o = Ok d1 -> dtw cdist y (Some z) o = Ok d2 ->
  exists d v1 v2 v, dtw cdist x (Some z) o = Ok d /\
    r_distance d1 = XFin v1 /\ r_distance d2 = XFin v2 /\ r_distance d = XFin v /\
    (v <= qc_ofZ (Z.of_nat (nr zm)) * v1 + qc_ofZ (Z.of_nat (nr xm)) * v2)%Qc.
Proof. exact weak_triangle_series. Qed.
Print Assumptions C68_weak_triangle_series.

(** C68: no window for the third call: any windows for the first two. *)
Theorem C68_windows_none : forall w1 kw1 w2 kw2 kw nx ny nz,
  in_window w1 kw1 nx ny 0 0 -> in_window w2 kw2 ny nz 0 0 ->
  windows_compose w1 kw1 w2 kw2 NoWindow kw nx ny nz.
Proof. exact compose_none. Qed.
Print Assumptions C68_windows_none.

(** C68: Sakoe-Chiba bands compose; their widths add. *)
Theorem C68_windows_sakoe : forall (s1 s2 : Qc) nx ny nz,
  (0 <= s1)%Qc -> (0 <= s2)%Qc ->
  windows_compose SakoeChiba [("window_size", XFin s1 : NumQ)] SakoeChiba [("window_size", XFin s2 : NumQ)]
    SakoeChiba [("window_size", XFin (s1 + s2)%Qc : NumQ)] nx ny nz.
Proof. exact compose_sakoe. Qed.
Print Assumptions C68_windows_sakoe.

Example C68_case_triangle : triangle tXY tYZ tXZ.
Proof. exact t_triangle. Qed.

Example C68_case_not_metric : succeeds tXY (oQ "symmetric1") "symmetric1" NoWindow (dist_is 1) /\
  succeeds tYZ (oQ "symmetric1") "symmetric1" NoWindow (dist_is 1) /\
  succeeds tXZ (oQ "symmetric1") "symmetric1" NoWindow (dist_is 3).
Proof. exact t_runs. Qed.

Example C68_case_bands : succeeds tXY (named "symmetric2" (WTName "sakoechiba") (bandQ 1) true false false false) "symmetric2" SakoeChiba (dist_is 2) /\
  succeeds tYZ (named "symmetric2" (WTName "sakoechiba") (bandQ 1) true false false false) "symmetric2" SakoeChiba (dist_is 1) /\
  succeeds tXZ (named "symmetric2" (WTName "sakoechiba") (bandQ 2) true false false false) "symmetric2" SakoeChiba (dist_is 5) /\
  windows_compose SakoeChiba (bandQ 1) SakoeChiba (bandQ 1) SakoeChiba (bandQ 2) 3 2 3.
Proof. exact t_runs_band. Qed.

Example C68_case_series : checkOk (dtw (cdist_of absdiff) (ser [1;1;1]%Z) (Some (ser [1;0]%Z)) (oQ "symmetric1")) (dist_is 1) = true /\
  checkOk (dtw (cdist_of absdiff) (ser [1;0]%Z) (Some (ser [0;0;0]%Z)) (oQ "symmetric1")) (dist_is 1) = true /\
  checkOk (dtw (cdist_of absdiff) (ser [1;1;1]%Z) (Some (ser [0;0;0]%Z)) (oQ "symmetric1")) (dist_is 3) = true.
Proof. exact t_series. Qed.
