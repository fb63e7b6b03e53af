{
 "M150": {
  "tightened": [
   "C73_needed",
   "C73_rejected"
  ],
  "note": "no theorem said which keyword arguments a built-in window accepts: only C37 noticed, by accident. C73 was added for it."
 },
 "M020": {
  "tightened": [],
  "note": "re-run later (M020 in the next list): the first run stopped before C18 was rebuilt"
 },
 "M404": {
  "tightened": [
   "C50_labels"
  ],
  "note": "no theorem said where StepPattern.plot() puts its labels; C50_labels was added for it."
 },
 "M300": {
  "tightened": [],
  "note": "equivalent program: no row offset is printed as a single character other than by the zero case, so the edit changes nothing"
 },
 "M304": {
  "tightened": [
   "C46_twoway"
  ],
  "note": "negative match indices were not covered; C46 now states them (C46_twoway, C46_outside_*)."
 },
 "M312": {
  "tightened": [],
  "note": "the claim broken is C71 (threads), whose theorems failed"
 },
 "M314": {
  "tightened": [
   "C79_default_call",
   "C79_default_found"
  ],
  "note": "the defaults of dtw() were nowhere stated; C79 was added for it."
 },
 "M317": {
  "tightened": [],
  "note": "noWindow is special-cased when the matrix is built, so only countPaths calls it: C31, C32, C33 failed; the distance is unaffected"
 },
 "M209": {
  "tightened": [],
  "note": "the claim broken is C69/C70 (mutable objects), whose theorems failed"
 },
 "M210": {
  "tightened": [],
  "note": "the claim broken is C69/C70 (mutable objects), whose theorems failed"
 },
 "M212": {
  "tightened": [],
  "note": "the claim broken is C69/C70 (mutable objects), whose theorems failed"
 },
 "M611": {
  "tightened": [
   "C69_history_goes_on (added)",
   "C69_after_exception (added)"
  ],
  "note": "only the concrete case noticed that a history ends at the first exception: the theorems quantify over histories that run to their end. Added: every sequence of proper calls runs to its end, also when some raise."
 },
 "M622": {
  "tightened": [],
  "note": "warp() only interpolates at its own nodes (solveTies returns one node for every position), so the edit does not change it; warpArea changes, and its theorems (C36) fail."
 }
}