(* Interpolated harmonics when products and additions may be fused (MFma): a choice for every place and sample. *)
From Coq Require Import ZArith List Bool.
From Verif Require Import Res F32 TabSynth MParms MUnvoiced MSynth MFma.
Import ListNotations.
Local Open Scope Z_scope.

(* mbelib.c:994-1016, as in MSynth.  Fused may be: the multiple of 2 pi with its subtraction (1003), either product of
   pw0l + deltawl (983, 1002) with that sum (1007), the linear part of the phase (1007), the amplitude (1011) and the
   last product (1014).  The product of line 998 is halved before it is subtracted, which is exact unless it is subnormal: fusing it changes nothing else. *)
Definition add_interpolated_c (k : contraction) (o : oracle) (aout : list f32) (l : Z) (cw0 pw0 phi_c phi_p m_c m_p : f32) : res (list f32) :=
  let fN := f_of_Z 160 in
  let pw0l := fmul pw0 (f_of_Z l) in
  let deltaphil := fsub (fsub phi_c phi_p) (fdiv (fmul (fadd pw0 cw0) (f_of_Z (l * 160))) f_two) in
  let turns := ffloor (fdiv (fadd deltaphil PI_F) (fmul f_two PI_F)) in
  let wrapped := if k 50 0 then ffma (fopp (fmul f_two PI_F)) turns deltaphil else fsub deltaphil (fmul (fmul f_two PI_F) turns) in
  let rate := if k 54 0 then ffma pw0 (f_of_Z l) (fmul (fdiv fone fN) wrapped) else macc (k 55 0) pw0l (fdiv fone fN) wrapped in
  for_up 0 160 (fun n aout =>
    let thetaln := fadd (macc (k 51 n) phi_p rate (f_of_Z n)) (fdiv (fmul (fsub cw0 pw0) (f_of_Z (l * n * n))) (f_of_Z 320)) in
    let aln := macc (k 52 n) m_p (fdiv (f_of_Z n) fN) (fsub m_c m_p) in
    x <- rd aout n ;;
    wr aout n (macc (k 53 n) x (fmul f_two aln) (cosf o thetaln))) aout.
