(* Specification for C75: amplitudes of moderate size, phases and noise spectra that are numbers, and a C library that is accurate. *)
From Coq Require Import ZArith Reals List.
From Verif Require Import Res F32 MParms SpecFrame SpecImbe SpecAmp SpecMachine SpecOut SpecSynth SpecTrig SpecEnh2 SpecFftErr SpecAmbe SpecAmbeMachine PFloat.
Import ListNotations.
Local Open Scope R_scope.

(* cosf and sinf are accurate for angles up to 1000000 *)
Definition accurate_angles (o : oracle) : Prop := forall x, ff x -> Rabs (R_of x) <= 1000000 -> trig_close o x.
(* the transforms of 256 numbers of size at most b are numbers of size at most 300 b (forward) and 600 b (backward) *)
Definition bounded_transforms (o : oracle) : Prop := forall x b, 1e-15 <= b <= 1e18 -> length x = 256%nat -> Forall (sized b) x ->
  Forall (sized (300 * b)) (fft_fwd o x) /\ Forall (sized (600 * b)) (fft_bwd o x).
(* the amplitudes of harmonics 1 .. L are numbers from 0 to b *)
Definition amplitudes_to (b : R) (m : parms) : Prop := forall l, (1 <= l <= p_L m)%Z -> ff (cell zero (p_Ml m) l) /\ 0 <= R_of (cell zero (p_Ml m) l) <= b.
(* the phases are numbers of size at most 20000, the noise spectrum kept for the next frame has numbers of size at most 1e18,
   the noise kept for the next frame has numbers of size at most 60000, the fundamental is at most 1 *)
Definition numeric (m : parms) : Prop :=
  Forall (sized 20000) (p_PHIl m) /\ Forall (sized 20000) (p_PSIl m) /\ Forall (sized 1e18) (p_previousUw m) /\
  Forall (sized 60000) (p_noiseOverlap m) /\ ff (p_w0 m) /\ 0 <= R_of (p_w0 m) <= 1.
(* a number within the limit of the samples *)
Definition number (x : f32) : Prop := ff x /\ fle (fabs x) sample_limit = true.
(* a parameter set of moderate level: amplitudes up to 2^28, energy not below 1e-6 *)
Definition moderate (m : parms) : Prop := amplitudes_to 268435456 m /\ 1e-6 <= energy m.
(* at least one harmonic, a fundamental of at least 0.049, and no harmonic at a multiple of half the sampling rate *)
Definition pitched (m : parms) : Prop := (1 <= p_L m <= 56)%Z /\ 0.049 <= R_of (p_w0 m) <= 1 /\ forall l, (1 <= l <= p_L m)%Z -> Rabs (cos (IZR l * R_of (p_w0 m))) <= 0.9988.
(* exp2f at x is a finite float within a thousandth of 2^x *)
Definition exp2_fine (o : oracle) (x : f32) : Prop := ff (exp2f o x) /\ Rabs (R_of (exp2f o x) - Rpower 2 (R_of x)) <= Rpower 2 (R_of x) / 1000.
(* the spectral residual coded by the bits of a frame lies between lo and hi *)
Definition residual_within (o : oracle) (lo hi : R) (d : list Z) : Prop := (pitch7200 d <= 207)%Z ->
  forall l, (1 <= l <= imbe_harmonics (pitch7200 d))%Z -> lo <= R_of (imbe_residual o (imbe_harmonics (pitch7200 d)) d l) <= hi.
(* bounds of the residual under which the log amplitudes stay below 28 *)
Definition tame (lo hi : R) : Prop := -8 <= lo <= 0 /\ 0 <= hi /\ 3.335 * hi - 2.335 * lo <= 27.8.
(* the parameter bits of a frame of pitch code 72 with a moderate spectrum: residuals between -3 and 6 *)
Definition tame_bits : list Z :=
  [0; 1; 0; 0; 1; 0; 1; 0; 0; 0; 0; 0; 1; 0; 0; 0; 0; 0; 1; 0; 0; 0; 0; 0; 1; 0; 0; 0; 0; 0; 1; 0; 0; 0; 0; 0; 1; 0; 0; 0; 0; 0; 1; 0;
   0; 0; 0; 0; 1; 0; 0; 0; 0; 0; 1; 0; 0; 0; 0; 0; 1; 0; 0; 0; 0; 0; 1; 0; 0; 0; 0; 0; 1; 0; 0; 0; 0; 0; 1; 0; 0; 0; 0; 0; 0; 0; 0; 0]%Z.

(* ---- AMBE ---- *)
(* exp2f is accurate at the pitch codes; 2450 does not use it for the pitch *)
Definition fine_exp2 (o : oracle) (r : codec) : Prop := match r with R2450 => True | R2400 => forall b, (0 <= b < 126)%Z -> exp2_fine o (exponent2400 b) end.
(* no voice frame after an erasure is concealed before a voice frame has been decoded; gone: the calls follow an erasure *)
Fixpoint no_gap (gone : bool) (cs : list ambe_call) : Prop :=
  match cs with
  | [] => True
  | c :: cs => match kind_of c with
               | Voice => (gone = true -> needs_of c = false) /\ no_gap false cs
               | Erasure => no_gap true cs
               | _ => no_gap gone cs
               end
  end.
Definition heard (r : codec) (cs : list ambe_call) : Prop := match r with R2450 => no_gap false cs | R2400 => True end.
(* a finite sample of size at most 4448 *)
Definition audible (x : f32) : Prop := sized 4448 x.
