(* Specification of the waveform of tone frames: sums of sinusoids of the frequencies of the identifier, at 8000 samples a second. *)
From Coq Require Import ZArith Reals List.
From Verif Require Import Res F32 MParms SpecTone SpecTrig PFloat.
Local Open Scope R_scope.

(* cosf and sinf are accurate on the angles of one turn less a quarter *)
Definition accurate_turn (o : oracle) : Prop := forall x, ff x -> Rabs (R_of x) <= 5 -> trig_close o x.
(* sample k (from 0) of a sinusoid of hz100 hundredths of a Hertz whose 32-bit phase before the first sample is p *)
Definition sinusoid (hz100 p k : Z) : R := sin (2 * PI * (IZR p / 4294967296 + IZR hz100 / 100 * (IZR k + 1) / 8000) - PI / 2).
(* the level of amplitude code ad *)
Definition tone_level (ad : Z) : R := IZR ad / 127 * (32767 * 0.95 / 7).
(* sample k of one or two sinusoids of a level; two sinusoids have half of it each *)
Definition tone_wave (hz : Z * Z) (ad p1 p2 k : Z) : R :=
  if (snd hz =? 0)%Z then tone_level ad * sinusoid (fst hz) p1 k
  else tone_level ad * (sinusoid (fst hz) p1 k + sinusoid (snd hz) p2 k) / 2.
(* s has n samples, sample i within 0.006 + 4e-6 (i + 1) of the wave (full level is 4447) *)
Definition sounds (hz : Z * Z) (ad p1 p2 : Z) (n : nat) (s : list f32) : Prop :=
  length s = n /\ forall i, (i < n)%nat -> near (nth i s fzero) (tone_wave hz ad p1 p2 (Z.of_nat i)) (0.006 + 4e-6 * (INR i + 1)).
