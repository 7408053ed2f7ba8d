(* The three builds of the library that are modelled.  The type only; used by the model and by the specifications. *)
(* /repo/src/core/mbelib.c:142-159, 300-357, 399-448, 468-499, 1126-1218 and /repo/src/core/mbe_unvoiced_fft.c:353-470, 600-650,
   755-772: Scalar is the code without MBELIB_ENABLE_SIMD, Sse2 the code with it on x86-64, Neon the code with it on AArch64.
   Simplification: every multiplication and addition is rounded by itself; a compiler that contracts them, in the scalar
   code or in vmlaq_f32, is not covered, nor is 32-bit Arm with its reciprocal estimates and flushing to zero. *)
Inductive build := Scalar | Sse2 | Neon.
(* whether the build has four lanes *)
Definition lanes4 (b : build) : bool := match b with Scalar => false | Sse2 | Neon => true end.
