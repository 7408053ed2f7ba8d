(* Specification of the safe use of the whole interface: what a caller may do with parameter sets, and which undefined
   behaviours a caller who keeps to it can still meet. *)
From Coq Require Import ZArith List Bool.
From Verif Require Import Res F32 MParms MAdaptive MSynth MApi SpecEcc SpecFrame SpecSched.
Import ListNotations.
Local Open Scope Z_scope.

(* what has been put into a parameter set: nothing yet; a model out of the bare decoder; the state of a decoder *)
Inductive grade := Raw | Model | Ready.
Definition filled_in (g : grade) : Prop := g <> Raw.

(* the arguments that are not parameter sets: sizes of buffers, bits that are bits, an error count between 0 and 100 *)
Definition data_bits (f : data_format) : nat := match f with DImbe => 88 | D2450 | D2400 => 49 end.
Definition frame_bits (f : frame_format) : nat := match f with F7200 | F7100 => 88 | F2450 | F2400 => 49 end.
Definition frame_shape (f : frame_format) : list (list Z) -> Prop := match f with F7200 => imbe7200_frame | F7100 => imbe7100_frame | F2450 | F2400 => ambe_frame end.
Definition whole {A} (b : list A) : Prop := length b = 160%nat.
Definition well_called (k : call) : Prop :=
  match k with
  | Speechf b _ _ _ | Tonefdstar b _ _ | Noisef b => whole b
  | Speech b _ _ _ | Noise b => whole b
  | Tonef b d _ => whole b /\ is_bits 49 d
  | Decode f d _ _ => is_bits (data_bits f) d
  | Dataf f b _ n d _ _ _ _ => whole b /\ 0 <= n <= 100 /\ is_bits (data_bits f) d
  | Data f b _ n d _ _ _ _ => whole b /\ 0 <= n <= 100 /\ is_bits (data_bits f) d
  | Framef f b fr d _ _ _ _ => whole b /\ frame_shape f fr /\ length d = frame_bits f
  | Frame f b fr d _ _ _ _ => whole b /\ frame_shape f fr /\ length d = frame_bits f
  | Init _ _ _ | Move _ _ | UseLast _ _ | Enhance _ | Smooth _ _ | AskMuting _ | AskRepeat _ | AskSmoothing _ | Seed _ => True
  end.
(* the parameter sets are distinct and hold what the call needs *)
Definition well_fed (g : Z -> grade) (k : call) : Prop :=
  NoDup (given k) /\
  match k with
  | Enhance c => filled_in (g c)
  | Smooth c p | Speechf _ c p _ | Speech _ c p _ | Decode _ _ c p => filled_in (g c) /\ filled_in (g p)
  | Dataf _ _ _ _ _ c p e _ | Data _ _ _ _ _ c p e _ | Framef _ _ _ _ c p e _ | Frame _ _ _ _ c p e _ => g c = Ready /\ g p = Ready /\ g e = Ready
  | Init _ _ _ | Move _ _ | UseLast _ _ | AskMuting _ | AskRepeat _ | AskSmoothing _ | Tonef _ _ _ | Tonefdstar _ _ _ | Seed _ | Noisef _ | Noise _ => True
  end.
(* what the sets hold after the call: initialisation makes decoder states, a copy holds what its source holds, the bare
   decoder leaves a model *)
Definition after_call (k : call) (g : Z -> grade) : Z -> grade :=
  match k with
  | Init c p e => fun a => if (a =? c) || (a =? p) || (a =? e) then Ready else g a
  | Move src dst | UseLast dst src => fun a => if a =? dst then g src else g a
  | Decode _ _ c _ => fun a => if a =? c then Model else g a
  | _ => g
  end.
(* a program that keeps to this, beginning with what g says *)
Fixpoint careful (g : Z -> grade) (s : list (nat * call)) : Prop :=
  match s with [] => True | (_, k) :: s => well_called k /\ well_fed g k /\ careful (after_call k g) s end.

(* what the sets hold after a program that began with nothing *)
Definition grades (s : list (nat * call)) : Z -> grade := fold_left (fun g x => after_call (snd x) g) s (fun _ => Raw).
(* an amplitude threshold to which 6000 cannot be added in an int, in a set that has been filled in *)
Definition saturated (g : Z -> grade) (h : heap) : Prop := exists a, filled_in (g a) /\ 2147483647 < p_amplitudeThreshold (h a) + 6000.

(* the set that holds the previous frame, for a call that decodes *)
Definition history (k : call) : option Z :=
  match k with
  | Decode _ _ _ p | Dataf _ _ _ _ _ _ p _ _ | Data _ _ _ _ _ _ p _ _ | Framef _ _ _ _ _ p _ _ | Frame _ _ _ _ _ p _ _ => Some p
  | _ => None
  end.
(* the calls that deliver decoded speech as 16-bit samples *)
Definition delivers_shorts (k : call) : bool := match k with Speech _ _ _ _ | Data _ _ _ _ _ _ _ _ _ | Frame _ _ _ _ _ _ _ _ => true | _ => false end.
(* the two ways in which a call can still fail: it predicts from a frame of 56 harmonics, or it converts a sample that is
   not a number in the scalar build *)
Definition wide_history (h : heap) (k : call) : Prop := exists p, history k = Some p /\ p_L (h p) = 56.
Definition excused (o : oracle) (h : heap) (k : call) (w : ub) : Prop :=
  (w = OOB /\ wide_history h k) \/ (w = BadConv /\ o_simd o = Scalar /\ delivers_shorts k = true).
