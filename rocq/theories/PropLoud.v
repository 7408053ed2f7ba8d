(* C74: an error-free frame whose repetition gives samples that are not numbers. *)
From Coq Require Import ZArith List Bool Reals.
From Verif Require Import Res F32 MParms MAdaptive MUnvoiced MSynth MFrame MImbe SpecFrame SpecState SpecImbe SpecMachine SpecLoud PropMachine PIdeal PLoud6.
Import ListNotations.
Local Open Scope Z_scope.

(* C74 refuted: one frame without errors, decoded eight times from initialisation, gives 160 NaN samples and no marker,
   whatever the library, as long as its cosf and exp2f are accurate *)
Theorem C74_refuted : exists c, call_ok c /\ ic_errors c = 0 /\ forall o a t, accurate_library o -> thread_ok t ->
  exists r st' t', imbe_stream o a (repeat c 8) start t = Ok (r, st', t') /\ nth_error r 7 = Some (repeat S754_nan 160, [0]).
Proof. exact loud_witness. Qed.
Print Assumptions C74_refuted.
(* ... from frame 8 on all frames are NaN, however long the stream and whatever its buffers; none is marked *)
Theorem C74_every : forall o a cs t, accurate_library o -> Forall loud_call cs -> thread_ok t ->
  exists r st' t', imbe_stream o a cs start t = Ok (r, st', t') /\ length r = length cs /\ Forall (fun x => snd x = [0]) r /\
  forall i, (7 <= i < length cs)%nat -> nth_error r i = Some (repeat S754_nan 160, [0]).
Proof. exact loud_frames. Qed.
Print Assumptions C74_every.
(* ... and the 16-bit call in that state is undefined in the scalar build (it converts NaN to an integer) and gives 160 samples of -31128 in the SSE2 build and 160 zeros in the NEON build *)
Theorem C74_short : forall o a cs c t r st t', accurate_library o -> Forall loud_call cs -> (7 <= length cs)%nat -> thread_ok t -> imbe_stream o a cs start t = Ok (r, st, t') ->
  forall aout errs, c = loud_bits -> length aout = 160%nat -> match o_simd o with
  | Scalar => exists w, mbe_processImbe4400Data o a aout errs 0 c st 3 t' = UB w
  | Sse2 => exists str st2 t2, mbe_processImbe4400Data o a aout errs 0 c st 3 t' = Ok (repeat (-31128) 160, str, st2, t2)
  | Neon => exists str st2 t2, mbe_processImbe4400Data o a aout errs 0 c st 3 t' = Ok (repeat 0 160, str, st2, t2)
  end.
Proof. exact loud_short. Qed.
Print Assumptions C74_short.
(* the correctly rounded functions are such a library; the frame has 25 harmonics *)
Example C74_case : accurate_library ideal /\ loud_call (mkimbe_call loud_bits 0 0 true 3 silence) /\ imbe_harmonics (pitch7200 loud_bits) = 25.
Proof. split; [exact ideal_accurate|]. split; [repeat split; reflexivity|]. vm_compute. reflexivity. Qed.
