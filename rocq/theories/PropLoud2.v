(* C78: an error-free AMBE 3600x2450 voice frame whose repetition gives samples that are not numbers. *)
From Coq Require Import ZArith List Bool Reals.
From Verif Require Import Res F32 MParms MAdaptive MUnvoiced MSynth MFrame MAmbe SpecFrame SpecAmbe SpecState SpecMachine SpecAmbeMachine SpecLoud SpecLoud2 PIdeal PLoud10.
Import ListNotations.
Local Open Scope Z_scope.

(* C78 refuted: one voice frame without errors, decoded thirteen times from initialisation, gives 160 NaN samples and no marker,
   whatever the library, as long as its cosf, exp2f and log2f are accurate *)
Theorem C78_refuted : exists c, ambe_ok c /\ kind_of c = Voice /\ ac_errors c = 0 /\ forall o a st t, accurate_library2 o -> st = start \/ st = start_ambe -> thread_ok t ->
  exists r st' t', ambe_stream (do2450 o a) (repeat c 13) st t = Ok (r, st', t') /\ nth_error r 12 = Some (repeat S754_nan 160, [0]).
Proof. exact loud_witness2. Qed.
Print Assumptions C78_refuted.
(* ... from frame 13 on all frames are NaN, however long the stream and whatever its buffers; none is marked *)
Theorem C78_every : forall o a cs st t, accurate_library2 o -> Forall loud_call2450 cs -> st = start \/ st = start_ambe -> thread_ok t ->
  exists r st' t', ambe_stream (do2450 o a) cs st t = Ok (r, st', t') /\ length r = length cs /\ Forall (fun x => snd x = [0]) r /\
  forall i, (12 <= i < length cs)%nat -> nth_error r i = Some (repeat S754_nan 160, [0]).
Proof. exact loud_frames2. Qed.
Print Assumptions C78_every.
(* ... and the 16-bit call in that state is undefined in the scalar build (it converts NaN to an integer) and gives 160 samples of -31128 in the SSE2 build and 160 zeros in the NEON build *)
Theorem C78_short : forall o a cs st t r st1 t1 uv errs, accurate_library2 o -> Forall loud_call2450 cs -> (12 <= length cs)%nat -> st = start \/ st = start_ambe -> thread_ok t -> ambe_stream (do2450 o a) cs st t = Ok (r, st1, t1) ->
  forall aout, length aout = 160%nat -> match o_simd o with
  | Scalar => exists w, mbe_processAmbe2450Data o a aout errs 0 loud_bits2450 st1 uv t1 = UB w
  | Sse2 => exists str st2 t2, mbe_processAmbe2450Data o a aout errs 0 loud_bits2450 st1 uv t1 = Ok (repeat (-31128) 160, str, st2, t2)
  | Neon => exists str st2 t2, mbe_processAmbe2450Data o a aout errs 0 loud_bits2450 st1 uv t1 = Ok (repeat 0 160, str, st2, t2)
  end.
Proof. exact loud_short2. Qed.
Print Assumptions C78_short.
(* the correctly rounded functions are such a library; the frame has 42 harmonics *)
Example C78_case : accurate_library2 ideal /\ loud_call2450 (mkambe_call loud_bits2450 0 0 true 3 (repeat (S754_zero false) 160)) /\ harmonics2450 (pitch2450 loud_bits2450) = 42.
Proof. split; [exact ideal_accurate2|]. split; [repeat split; reflexivity|]. vm_compute. reflexivity. Qed.
