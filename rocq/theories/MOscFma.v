(* The oscillators of voiced synthesis when products and additions may be fused (MFma): a choice for every sample. *)
From Coq Require Import ZArith List Bool.
From Verif Require Import Res F32 Build TabSynth MParms MSynth MFma.
Import ListNotations.
Local Open Scope Z_scope.

(* mbelib.c:135-136: cc * cd - ss * sd and ss * cd + cc * sd, where one of two products may be fused with the sum or difference *)
Definition osc_step_c (k : contraction) (j : Z) (c s sd cd : f32) : f32 * f32 :=
  (if k 40 j then ffma c cd (fopp (fmul s sd)) else if k 41 j then ffma (fopp s) sd (fmul c cd) else fsub (fmul c cd) (fmul s sd),
   if k 42 j then ffma s cd (fmul c sd) else macc (k 43 j) (fmul s cd) c sd).

(* mbelib.c:147, 156 (a lane) and 161-164: the last product of the term may be fused with its addition to the sample *)
Definition voiced_add_c (k : contraction) (j : Z) (simd : build) (x w amp c : f32) : f32 :=
  if lanes4 simd then macc (k 44 j) x (fmul c w) (fmul f_two amp) else macc (k 44 j) x (fmul (fmul f_two w) amp) c.

(* mbelib.c:126-165, mbe_add_voiced_block4, as in MSynth *)
Definition mbe_add_voiced_block4_c (k : contraction) (simd : build) (aout : list f32) (n w : Z) (amp c s sd cd : f32) : res (list f32 * f32 * f32) :=
  for_up 0 4 (fun i '(aout, c, s) =>
    x <- rd aout (n + i) ;; wk <- rd Ws (w + i) ;;
    aout <- wr aout (n + i) (voiced_add_c k (n + i) simd x wk amp c) ;;
    let '(c', s') := osc_step_c k (n + i) c s sd cd in
    Ok (aout, c', s')) (aout, c, s).

(* mbelib.c:1029-1032, 1044-1047: for (n = 0; n < 160; n += 4) *)
Definition add_oscillator_c (k : contraction) (simd : build) (aout : list f32) (off : Z) (amp c s sd cd : f32) : res (list f32) :=
  '(aout, _, _) <- loop 40 0 4 (fun n '(aout, c, s) => mbe_add_voiced_block4_c k simd aout n (n + off) amp c s sd cd)
                        (aout, c, s) ;;
  Ok aout.
