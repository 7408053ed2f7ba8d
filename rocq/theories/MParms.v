(* Model of the decoder state: struct mbe_parameters, /repo/include/mbelib-neo/mbelib.h:84-135, and of the functions
   that initialise and copy it. *)
From Coq Require Import ZArith List Bool.
From Verif Require Import Res F32.
From Verif Require Export Build.
Import ListNotations.
Local Open Scope Z_scope.

(* mbelib.h:84-135, fields in declaration order.  int is Z (checked where it is computed), arrays are lists of the
   declared length (57, 57, 57, 57, 57, 256, 96; see wf_parms). *)
Record parms := mkparms {
  p_w0 : f32;
  p_L : Z;
  p_K : Z;
  p_Vl : list Z;
  p_Ml : list f32;
  p_log2Ml : list f32;
  p_PHIl : list f32;
  p_PSIl : list f32;
  p_gamma : f32;
  p_un : Z;
  p_repeat : Z;
  p_swn : Z;
  p_localEnergy : f32;
  p_amplitudeThreshold : Z;
  p_errorRate : f32;
  p_errorCountTotal : Z;
  p_errorCount4 : Z;
  p_repeatCount : Z;
  p_mutingThreshold : f32;
  p_previousUw : list f32;
  p_noiseSeed : f32;
  p_noiseOverlap : list f32
}.

(* field updates: mp->f = v *)
Definition set_w0 (v : f32) (m : parms) : parms :=
    mkparms v (p_L m) (p_K m) (p_Vl m) (p_Ml m) (p_log2Ml m) (p_PHIl m) (p_PSIl m) (p_gamma m) (p_un m) (p_repeat m)
    (p_swn m) (p_localEnergy m) (p_amplitudeThreshold m) (p_errorRate m) (p_errorCountTotal m) (p_errorCount4 m)
    (p_repeatCount m) (p_mutingThreshold m) (p_previousUw m) (p_noiseSeed m) (p_noiseOverlap m).
Definition set_L (v : Z) (m : parms) : parms :=
    mkparms (p_w0 m) v (p_K m) (p_Vl m) (p_Ml m) (p_log2Ml m) (p_PHIl m) (p_PSIl m) (p_gamma m) (p_un m) (p_repeat
    m) (p_swn m) (p_localEnergy m) (p_amplitudeThreshold m) (p_errorRate m) (p_errorCountTotal m) (p_errorCount4 m)
    (p_repeatCount m) (p_mutingThreshold m) (p_previousUw m) (p_noiseSeed m) (p_noiseOverlap m).
Definition set_K (v : Z) (m : parms) : parms :=
    mkparms (p_w0 m) (p_L m) v (p_Vl m) (p_Ml m) (p_log2Ml m) (p_PHIl m) (p_PSIl m) (p_gamma m) (p_un m) (p_repeat
    m) (p_swn m) (p_localEnergy m) (p_amplitudeThreshold m) (p_errorRate m) (p_errorCountTotal m) (p_errorCount4 m)
    (p_repeatCount m) (p_mutingThreshold m) (p_previousUw m) (p_noiseSeed m) (p_noiseOverlap m).
Definition set_Vl (v : list Z) (m : parms) : parms :=
    mkparms (p_w0 m) (p_L m) (p_K m) v (p_Ml m) (p_log2Ml m) (p_PHIl m) (p_PSIl m) (p_gamma m) (p_un m) (p_repeat m)
    (p_swn m) (p_localEnergy m) (p_amplitudeThreshold m) (p_errorRate m) (p_errorCountTotal m) (p_errorCount4 m)
    (p_repeatCount m) (p_mutingThreshold m) (p_previousUw m) (p_noiseSeed m) (p_noiseOverlap m).
Definition set_Ml (v : list f32) (m : parms) : parms :=
    mkparms (p_w0 m) (p_L m) (p_K m) (p_Vl m) v (p_log2Ml m) (p_PHIl m) (p_PSIl m) (p_gamma m) (p_un m) (p_repeat m)
    (p_swn m) (p_localEnergy m) (p_amplitudeThreshold m) (p_errorRate m) (p_errorCountTotal m) (p_errorCount4 m)
    (p_repeatCount m) (p_mutingThreshold m) (p_previousUw m) (p_noiseSeed m) (p_noiseOverlap m).
Definition set_log2Ml (v : list f32) (m : parms) : parms :=
    mkparms (p_w0 m) (p_L m) (p_K m) (p_Vl m) (p_Ml m) v (p_PHIl m) (p_PSIl m) (p_gamma m) (p_un m) (p_repeat m)
    (p_swn m) (p_localEnergy m) (p_amplitudeThreshold m) (p_errorRate m) (p_errorCountTotal m) (p_errorCount4 m)
    (p_repeatCount m) (p_mutingThreshold m) (p_previousUw m) (p_noiseSeed m) (p_noiseOverlap m).
Definition set_PHIl (v : list f32) (m : parms) : parms :=
    mkparms (p_w0 m) (p_L m) (p_K m) (p_Vl m) (p_Ml m) (p_log2Ml m) v (p_PSIl m) (p_gamma m) (p_un m) (p_repeat m)
    (p_swn m) (p_localEnergy m) (p_amplitudeThreshold m) (p_errorRate m) (p_errorCountTotal m) (p_errorCount4 m)
    (p_repeatCount m) (p_mutingThreshold m) (p_previousUw m) (p_noiseSeed m) (p_noiseOverlap m).
Definition set_PSIl (v : list f32) (m : parms) : parms :=
    mkparms (p_w0 m) (p_L m) (p_K m) (p_Vl m) (p_Ml m) (p_log2Ml m) (p_PHIl m) v (p_gamma m) (p_un m) (p_repeat m)
    (p_swn m) (p_localEnergy m) (p_amplitudeThreshold m) (p_errorRate m) (p_errorCountTotal m) (p_errorCount4 m)
    (p_repeatCount m) (p_mutingThreshold m) (p_previousUw m) (p_noiseSeed m) (p_noiseOverlap m).
Definition set_gamma (v : f32) (m : parms) : parms :=
    mkparms (p_w0 m) (p_L m) (p_K m) (p_Vl m) (p_Ml m) (p_log2Ml m) (p_PHIl m) (p_PSIl m) v (p_un m) (p_repeat m)
    (p_swn m) (p_localEnergy m) (p_amplitudeThreshold m) (p_errorRate m) (p_errorCountTotal m) (p_errorCount4 m)
    (p_repeatCount m) (p_mutingThreshold m) (p_previousUw m) (p_noiseSeed m) (p_noiseOverlap m).
Definition set_un (v : Z) (m : parms) : parms :=
    mkparms (p_w0 m) (p_L m) (p_K m) (p_Vl m) (p_Ml m) (p_log2Ml m) (p_PHIl m) (p_PSIl m) (p_gamma m) v (p_repeat m)
    (p_swn m) (p_localEnergy m) (p_amplitudeThreshold m) (p_errorRate m) (p_errorCountTotal m) (p_errorCount4 m)
    (p_repeatCount m) (p_mutingThreshold m) (p_previousUw m) (p_noiseSeed m) (p_noiseOverlap m).
Definition set_repeat (v : Z) (m : parms) : parms :=
    mkparms (p_w0 m) (p_L m) (p_K m) (p_Vl m) (p_Ml m) (p_log2Ml m) (p_PHIl m) (p_PSIl m) (p_gamma m) (p_un m) v
    (p_swn m) (p_localEnergy m) (p_amplitudeThreshold m) (p_errorRate m) (p_errorCountTotal m) (p_errorCount4 m)
    (p_repeatCount m) (p_mutingThreshold m) (p_previousUw m) (p_noiseSeed m) (p_noiseOverlap m).
Definition set_swn (v : Z) (m : parms) : parms :=
    mkparms (p_w0 m) (p_L m) (p_K m) (p_Vl m) (p_Ml m) (p_log2Ml m) (p_PHIl m) (p_PSIl m) (p_gamma m) (p_un m)
    (p_repeat m) v (p_localEnergy m) (p_amplitudeThreshold m) (p_errorRate m) (p_errorCountTotal m) (p_errorCount4
    m) (p_repeatCount m) (p_mutingThreshold m) (p_previousUw m) (p_noiseSeed m) (p_noiseOverlap m).
Definition set_localEnergy (v : f32) (m : parms) : parms :=
    mkparms (p_w0 m) (p_L m) (p_K m) (p_Vl m) (p_Ml m) (p_log2Ml m) (p_PHIl m) (p_PSIl m) (p_gamma m) (p_un m)
    (p_repeat m) (p_swn m) v (p_amplitudeThreshold m) (p_errorRate m) (p_errorCountTotal m) (p_errorCount4 m)
    (p_repeatCount m) (p_mutingThreshold m) (p_previousUw m) (p_noiseSeed m) (p_noiseOverlap m).
Definition set_amplitudeThreshold (v : Z) (m : parms) : parms :=
    mkparms (p_w0 m) (p_L m) (p_K m) (p_Vl m) (p_Ml m) (p_log2Ml m) (p_PHIl m) (p_PSIl m) (p_gamma m) (p_un m)
    (p_repeat m) (p_swn m) (p_localEnergy m) v (p_errorRate m) (p_errorCountTotal m) (p_errorCount4 m)
    (p_repeatCount m) (p_mutingThreshold m) (p_previousUw m) (p_noiseSeed m) (p_noiseOverlap m).
Definition set_errorRate (v : f32) (m : parms) : parms :=
    mkparms (p_w0 m) (p_L m) (p_K m) (p_Vl m) (p_Ml m) (p_log2Ml m) (p_PHIl m) (p_PSIl m) (p_gamma m) (p_un m)
    (p_repeat m) (p_swn m) (p_localEnergy m) (p_amplitudeThreshold m) v (p_errorCountTotal m) (p_errorCount4 m)
    (p_repeatCount m) (p_mutingThreshold m) (p_previousUw m) (p_noiseSeed m) (p_noiseOverlap m).
Definition set_errorCountTotal (v : Z) (m : parms) : parms :=
    mkparms (p_w0 m) (p_L m) (p_K m) (p_Vl m) (p_Ml m) (p_log2Ml m) (p_PHIl m) (p_PSIl m) (p_gamma m) (p_un m)
    (p_repeat m) (p_swn m) (p_localEnergy m) (p_amplitudeThreshold m) (p_errorRate m) v (p_errorCount4 m)
    (p_repeatCount m) (p_mutingThreshold m) (p_previousUw m) (p_noiseSeed m) (p_noiseOverlap m).
Definition set_errorCount4 (v : Z) (m : parms) : parms :=
    mkparms (p_w0 m) (p_L m) (p_K m) (p_Vl m) (p_Ml m) (p_log2Ml m) (p_PHIl m) (p_PSIl m) (p_gamma m) (p_un m)
    (p_repeat m) (p_swn m) (p_localEnergy m) (p_amplitudeThreshold m) (p_errorRate m) (p_errorCountTotal m) v
    (p_repeatCount m) (p_mutingThreshold m) (p_previousUw m) (p_noiseSeed m) (p_noiseOverlap m).
Definition set_repeatCount (v : Z) (m : parms) : parms :=
    mkparms (p_w0 m) (p_L m) (p_K m) (p_Vl m) (p_Ml m) (p_log2Ml m) (p_PHIl m) (p_PSIl m) (p_gamma m) (p_un m)
    (p_repeat m) (p_swn m) (p_localEnergy m) (p_amplitudeThreshold m) (p_errorRate m) (p_errorCountTotal m)
    (p_errorCount4 m) v (p_mutingThreshold m) (p_previousUw m) (p_noiseSeed m) (p_noiseOverlap m).
Definition set_mutingThreshold (v : f32) (m : parms) : parms :=
    mkparms (p_w0 m) (p_L m) (p_K m) (p_Vl m) (p_Ml m) (p_log2Ml m) (p_PHIl m) (p_PSIl m) (p_gamma m) (p_un m)
    (p_repeat m) (p_swn m) (p_localEnergy m) (p_amplitudeThreshold m) (p_errorRate m) (p_errorCountTotal m)
    (p_errorCount4 m) (p_repeatCount m) v (p_previousUw m) (p_noiseSeed m) (p_noiseOverlap m).
Definition set_previousUw (v : list f32) (m : parms) : parms :=
    mkparms (p_w0 m) (p_L m) (p_K m) (p_Vl m) (p_Ml m) (p_log2Ml m) (p_PHIl m) (p_PSIl m) (p_gamma m) (p_un m)
    (p_repeat m) (p_swn m) (p_localEnergy m) (p_amplitudeThreshold m) (p_errorRate m) (p_errorCountTotal m)
    (p_errorCount4 m) (p_repeatCount m) (p_mutingThreshold m) v (p_noiseSeed m) (p_noiseOverlap m).
Definition set_noiseSeed (v : f32) (m : parms) : parms :=
    mkparms (p_w0 m) (p_L m) (p_K m) (p_Vl m) (p_Ml m) (p_log2Ml m) (p_PHIl m) (p_PSIl m) (p_gamma m) (p_un m)
    (p_repeat m) (p_swn m) (p_localEnergy m) (p_amplitudeThreshold m) (p_errorRate m) (p_errorCountTotal m)
    (p_errorCount4 m) (p_repeatCount m) (p_mutingThreshold m) (p_previousUw m) v (p_noiseOverlap m).
Definition set_noiseOverlap (v : list f32) (m : parms) : parms :=
    mkparms (p_w0 m) (p_L m) (p_K m) (p_Vl m) (p_Ml m) (p_log2Ml m) (p_PHIl m) (p_PSIl m) (p_gamma m) (p_un m)
    (p_repeat m) (p_swn m) (p_localEnergy m) (p_amplitudeThreshold m) (p_errorRate m) (p_errorCountTotal m)
    (p_errorCount4 m) (p_repeatCount m) (p_mutingThreshold m) (p_previousUw m) (p_noiseSeed m) v.

(* the array lengths declared in mbelib.h:92-134 *)
Definition wf_parms (m : parms) : Prop :=
  length (p_Vl m) = 57%nat /\ length (p_Ml m) = 57%nat /\ length (p_log2Ml m) = 57%nat /\
  length (p_PHIl m) = 57%nat /\ length (p_PSIl m) = 57%nat /\
  length (p_previousUw m) = 256%nat /\ length (p_noiseOverlap m) = 96%nat.

(* int <<: undefined for a negative operand or an overflowing result *)
Definition shl (x n : Z) : res Z := if x <? 0 then UB Overflow else to_int (Z.shiftl x n).

(* Library functions.  cosf, sinf, exp2f, log2f, expf and the two 256-point PFFFT transforms are not modelled: a run
   is given an arbitrary function for each; results are brought to binary32 form.  o_plan is whether
   mbe_fft_plan_alloc succeeds (mbelib.c:65-75; the same answer at every call of a run; MProcess has one for each).  o_simd is which
   of the three builds of Build.v runs; o_tones is false in a build with DISABLE_AMBE_TONES (CMakeLists.txt:95-98). *)
Record oracle := mkoracle {
  o_cosf : f32 -> f32; o_sinf : f32 -> f32; o_exp2f : f32 -> f32; o_log2f : f32 -> f32; o_expf : f32 -> f32;
  o_fft : list f32 -> Z -> f32; o_ifft : list f32 -> Z -> f32;
  o_plan : bool; o_simd : build; o_tones : bool
}.
Definition cosf (o : oracle) (x : f32) : f32 := f_canon (o_cosf o x).
Definition sinf (o : oracle) (x : f32) : f32 := f_canon (o_sinf o x).
Definition exp2f (o : oracle) (x : f32) : f32 := f_canon (o_exp2f o x).
Definition log2f (o : oracle) (x : f32) : f32 := f_canon (o_log2f o x).
Definition expf (o : oracle) (x : f32) : f32 := f_canon (o_expf o x).
(* pffft_transform_ordered: 256 floats in, 256 floats out *)
Definition fft_fwd (o : oracle) (x : list f32) : list f32 :=
  map (fun k => f_canon (o_fft o x (Z.of_nat k))) (seq 0 256).
Definition fft_bwd (o : oracle) (x : list f32) : list f32 :=
  map (fun k => f_canon (o_ifft o x (Z.of_nat k))) (seq 0 256).

(* Thread-local variables: mbelib.c:58 (rng_state), mbe_adaptive.c:24-30 (comfort-noise generator and the
   pre-enhancement energy handoff), mbe_unvoiced_fft.c:28-29 (cold-start seed).  The owner pointer is an abstract
   address; None is NULL.  The FFT plan (mbelib.c:61) and the three DCT caches (imbe7200x4400.c:45,
   ambe3600x2450.c:35, ambe3600x2400.c:40) are left out: they hold only values that are recomputed identically. *)
Record tls := mktls {
  t_rng : Z;
  t_seed48 : Z; t_seeded : bool;
  t_rm0 : f32; t_rm0_valid : bool; t_rm0_owner : option Z;
  t_uv_seed : Z; t_uv_override : bool
}.

(* the values at thread start *)
Definition tls0 : tls := mktls 305419896 0 false fzero false None 3147 false.

(* mbelib.h: MBE_MAX_FRAME_REPEATS, MBE_MUTING_THRESHOLD_IMBE 0.0875f, MBE_MUTING_THRESHOLD_AMBE 0.096f *)
Definition MAX_FRAME_REPEATS : Z := 4.
Definition MUTING_IMBE : f32 := Eval vm_compute in flit 875 10000.
Definition MUTING_AMBE : f32 := Eval vm_compute in flit 96 1000.

(* src/internal/mbe_adaptive.h constants *)
Definition DEFAULT_LOCAL_ENERGY : f32 := Eval vm_compute in f_of_Z 75000.
Definition MIN_LOCAL_ENERGY : f32 := Eval vm_compute in f_of_Z 10000.
Definition DEFAULT_AMPLITUDE_THRESHOLD : Z := 20480.

(* (float)((4.0 * M_PI) / (134.0 + 39.5)), mbelib.c:230 and imbe7200x4400.c:64 *)
Definition default_w0 : f32 :=
  d2f (ddiv (dmul (d_of_Z 4) M_PI) (dadd (d_of_Z 134) (dlit 395 10))).
(* (int)(0.9254 * (int)((M_PI / w0) + 0.25)), mbelib.c:231 and imbe7200x4400.c:65, 304 *)
Definition L_of_w0 (w0 : f32) : res Z :=
  i <- sf_to_int (dadd (ddiv M_PI (f2d w0)) (dlit 1 4)) ;;
  sf_to_int (dmul (dlit 9254 10000) (d_of_Z i)).

(* mbelib.c:200-203, mbe_moveMbeParms: the value stored into *out *)
Definition mbe_moveMbeParms (in_ : parms) : parms := in_.
(* mbelib.c:212-215, mbe_useLastMbeParms: the value stored into *out *)
Definition mbe_useLastMbeParms (in_ : parms) : parms := in_.

(* for (l = 0; l <= 56; l++) over the five per-band arrays, mbelib.c:234-241 and ambe_common.c:121-128 *)
Definition init_bands (m : parms) : res parms :=
  for_up 0 57 (fun l m =>
    a <- wr (p_Ml m) l fone ;;
    b <- wr (p_Vl m) l 0 ;;
    c <- wr (p_log2Ml m) l fzero ;;
    d <- wr (p_PHIl m) l fzero ;;
    e <- wr (p_PSIl m) l fzero ;;
    Ok (set_PSIl e (set_PHIl d (set_log2Ml c (set_Vl b (set_Ml a m)))))) m.

(* mbelib.c:223-264, mbe_initMbeParms: prev is filled field by field from its previous contents, then copied *)
Definition mbe_initMbeParms (cur prev enh : parms) : res (parms * parms * parms) :=
  let prev := set_un 0 (set_swn 0 prev) in
  let prev := set_w0 default_w0 prev in
  L <- L_of_w0 (p_w0 prev) ;;
  let prev := set_gamma fzero (set_K 12 (set_L L prev)) in
  prev <- init_bands prev ;;
  let prev := set_repeat 0 prev in
  let prev := set_errorCount4 0 (set_errorCountTotal 0 (set_errorRate fzero
                (set_amplitudeThreshold DEFAULT_AMPLITUDE_THRESHOLD (set_localEnergy DEFAULT_LOCAL_ENERGY prev)))) in
  let prev := set_mutingThreshold MUTING_IMBE (set_repeatCount 0 prev) in
  let prev := set_noiseSeed (fopp fone) prev in
  let prev := set_previousUw (repeat fzero 256) (set_noiseOverlap (repeat fzero 96) prev) in
  let cur := mbe_moveMbeParms prev in
  let enh := mbe_moveMbeParms prev in
  Ok (cur, prev, enh).

(* ambe_common.c:106-146, mbe_initAmbeParms_common; w0 = (float)((M_PI / 32.0) * (2.0 * M_PI)) *)
Definition ambe_default_w0 : f32 := d2f (dmul (ddiv M_PI (d_of_Z 32)) (dmul (d_of_Z 2) M_PI)).
Definition mbe_initAmbeParms_common (cur prev enh : parms) : res (parms * parms * parms) :=
  let prev := set_un 0 (set_swn 0 prev) in
  let prev := set_gamma fzero (set_K 0 (set_L 15 (set_w0 ambe_default_w0 prev))) in
  prev <- init_bands prev ;;
  let prev := set_repeat 0 prev in
  let prev := set_errorCount4 0 (set_errorCountTotal 0 (set_errorRate fzero
                (set_amplitudeThreshold DEFAULT_AMPLITUDE_THRESHOLD (set_localEnergy DEFAULT_LOCAL_ENERGY prev)))) in
  let prev := set_mutingThreshold MUTING_AMBE (set_repeatCount 0 prev) in
  let prev := set_noiseSeed (fopp fone) prev in
  let prev := set_previousUw (repeat fzero 256) (set_noiseOverlap (repeat fzero 96) prev) in
  Ok (prev, prev, prev).

(* ambe_common.c:179-188, mbe_ensureAmbeDefaults_common; 1e-6f *)
Definition f_1em6 : f32 := Eval vm_compute in flit 1 1000000.
Definition is_ambe_threshold (x : f32) : bool := negb (fgt (fabs (fsub x MUTING_AMBE)) f_1em6).
Definition mbe_ensureAmbeDefaults_common (cur prev enh : parms) : res (parms * parms * parms) :=
  if fgt (fabs (fsub (p_mutingThreshold prev) MUTING_AMBE)) f_1em6
  then mbe_initAmbeParms_common cur prev enh
  else Ok (cur, prev, enh).

(* ambe_common.c:148-177, mbe_setAmbeErasureParms_common with a non-NULL state_src *)
Definition mbe_setAmbeErasureParms_common (mp src : parms) : res parms :=
  let mp := set_un 0 (set_swn 0 mp) in
  let mp := set_gamma fzero (set_K 0 (set_L 9 (set_w0 fzero mp))) in
  mp <- for_up 0 57 (fun l mp =>
    a <- wr (p_Ml mp) l fone ;;
    b <- wr (p_Vl mp) l 0 ;;
    c <- wr (p_log2Ml mp) l fzero ;;
    phi <- rd (p_PHIl src) l ;;
    d <- wr (p_PHIl mp) l phi ;;
    psi <- rd (p_PSIl src) l ;;
    e <- wr (p_PSIl mp) l psi ;;
    Ok (set_PSIl e (set_PHIl d (set_log2Ml c (set_Vl b (set_Ml a mp)))))) mp ;;
  let mp := set_amplitudeThreshold DEFAULT_AMPLITUDE_THRESHOLD (set_localEnergy DEFAULT_LOCAL_ENERGY mp) in
  Ok (set_previousUw (p_previousUw src) (set_noiseOverlap (p_noiseOverlap src) (set_noiseSeed (p_noiseSeed src) mp))).

(* snprintf (str, size, "%s", s) for a string s without NUL characters: bytes are stored while they fit in size - 1,
   then a NUL is stored; str is the caller's buffer *)
Fixpoint snprintf_s (str : list Z) (pos size : Z) (s : list Z) : res (list Z) :=
  match s with
  | [] => wr str pos 0
  | c :: t => if pos <? size - 1 then str' <- wr str pos c ;; snprintf_s str' (pos + 1) size t else wr str pos 0
  end.
(* mbelib.c:173-180, mbe_printVersion on a non-NULL buffer; version is MBELIB_VERSION *)
Definition mbe_printVersion (version str : list Z) : res (list Z) := snprintf_s str 0 32 version.
(* mbelib.c:185-188, mbe_versionString *)
Definition mbe_versionString (version : list Z) : list Z := version.
