(* The recursive filters of the error rate and of the local energy, and the decisions taken on the error rate, when products and additions may be
   fused (MFma).  A choice for every frame i. *)
From Coq Require Import ZArith List Bool.
From Verif Require Import Res F32 Build MParms MAdaptive MImbe MFma.
Import ListNotations.
Local Open Scope Z_scope.

(* a * b + c * d: one of the products may be fused with the addition *)
Definition mix_c (k : contraction) (i : Z) (a b c d : f32) : f32 :=
  if k 20 i then ffma a b (fmul c d) else macc (k 21 i) (fmul a b) c d.

(* imbe7200x4400.c:596 (coef 0.000365f), ambe3600x2450.c:642 and ambe3600x2400.c:620 (coef 0.001064f) *)
Definition error_rate_c (k : contraction) (i : Z) (coef rate : f32) (errs2 : Z) : f32 := mix_c k i f_095 rate coef (f_of_Z errs2).

(* mbe_adaptive.c:207-215 *)
Definition smoothing_energy_c (k : contraction) (i : Z) (prevEnergy rm0 : f32) : f32 :=
  let pe := if flt prevEnergy MIN_LOCAL_ENERGY then DEFAULT_LOCAL_ENERGY else prevEnergy in
  let e := mix_c k i SMOOTH_ALPHA pe SMOOTH_BETA rm0 in
  if flt e MIN_LOCAL_ENERGY then MIN_LOCAL_ENERGY else e.

(* imbe7200x4400.c:608-618; 10.0f + 40.0f * errorRate may be fused *)
Definition imbe_repeat_required_c (k : contraction) (i : Z) (bad : Z) (errs2 : Z) (rate : f32) (c0_errors : Z) (c0_valid : bool) : bool :=
  if bad =? 1 then true
  else if c0_valid then (2 <=? c0_errors) && fge (f_of_Z errs2) (macc (k 22 i) (f_of_Z 10) (f_of_Z 40) rate)
  else 5 <? errs2.

(* imbe7200x4400.c:588-636.  The parameter decoder called here is the one without fusing: the decisions do not depend on what it computes from floats *)
Definition imbe_parameters_c (k : contraction) (i : Z) (o : oracle) (d : list Z) (errs2 : Z) (cur prev : parms) (c0_errors : Z) (c0_valid : bool)
  : res (parms * parms * bool * bool) :=
  let cur := set_mutingThreshold MUTING_IMBE cur in
  let cur := set_errorRate (error_rate_c k i f_365em6 (p_errorRate prev) errs2) (set_errorCountTotal errs2 cur) in
  let cur := if c0_valid then cur else set_errorCount4 0 cur in
  '(bad, cur, prev) <- mbe_decodeImbe4400Parms o d cur prev ;;
  let rep := imbe_repeat_required_c k i bad errs2 (p_errorRate cur) c0_errors c0_valid in
  cur <- imbe_conceal rep cur prev ;;
  Ok (cur, prev, rep, mbe_isMaxFrameRepeat cur || mbe_requiresMuting cur).

(* A stream: imbe7200x4400.c:638 makes the current set the previous one.  What synthesis leaves in the current set is arbitrary: it comes with the
   frame.  Result: repeated and muted, for every frame *)
Record frame_c := mkframe_c { fc_bits : list Z; fc_errors : Z; fc_c0 : Z; fc_valid : bool; fc_cur : parms }.
Fixpoint imbe_frames_c (k : contraction) (i : Z) (o : oracle) (fs : list frame_c) (prev : parms) : res (list (bool * bool)) :=
  match fs with
  | [] => Ok []
  | f :: fs =>
      '(cur, _, rep, muted) <- imbe_parameters_c k i o (fc_bits f) (fc_errors f) (fc_cur f) prev (fc_c0 f) (fc_valid f) ;;
      rest <- imbe_frames_c k (i + 1) o fs cur ;;
      Ok ((rep, muted) :: rest)
  end.

(* the filters by themselves, over a list of error counts or energies *)
Fixpoint rates_c (k : contraction) (i : Z) (coef : f32) (ns : list Z) (x : f32) : f32 :=
  match ns with [] => x | n :: ns => rates_c k (i + 1) coef ns (error_rate_c k i coef x n) end.
Fixpoint energies_c (k : contraction) (i : Z) (ms : list f32) (x : f32) : f32 :=
  match ms with [] => x | m :: ms => energies_c k (i + 1) ms (smoothing_energy_c k i x m) end.
