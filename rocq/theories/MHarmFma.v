(* All harmonics of voiced synthesis when products and additions may be fused (MFma): a choice for every harmonic, place and sample. *)
From Coq Require Import ZArith List Bool.
From Verif Require Import Res F32 TabSynth MParms MUnvoiced MSynth MFma MOscFma MGlideFma.
Import ListNotations.
Local Open Scope Z_scope.

(* mbelib.c:1042: phi - cw0l * N *)
Definition start_c (k : contraction) (phi cw0l : f32) : f32 :=
  if k 45 0 then ffma (fopp cw0l) (f_of_Z 160) phi else fsub phi (fmul cw0l (f_of_Z 160)).

(* mbelib.c:981-1051, as add_harmonic in MSynth; the two oscillators are fused independently (the current one by the choices from 100 on) *)
Definition add_harmonic_c (k : contraction) (o : oracle) (cw0 pw0 : f32) (cur prev : parms) (l : Z) (aout : list f32) : res (list f32) :=
  let cw0l := fmul cw0 (f_of_Z l) in
  let pw0l := fmul pw0 (f_of_Z l) in
  vc <- rd (p_Vl cur) l ;; vp <- rd (p_Vl prev) l ;;
  let cur_voiced := vc =? 1 in
  let prev_voiced := vp =? 1 in
  if cur_voiced || prev_voiced then
    if (l <? 8) && cur_voiced && prev_voiced && flt (fabs (fsub cw0 pw0)) (fmul f_0p1 cw0) then
      phi_c <- rd (p_PHIl cur) l ;; phi_p <- rd (p_PHIl prev) l ;;
      m_c <- rd (p_Ml cur) l ;; m_p <- rd (p_Ml prev) l ;;
      add_interpolated_c k o aout l cw0 pw0 phi_c phi_p m_c m_p
    else
      aout <- (if prev_voiced then
                 amp <- rd (p_Ml prev) l ;; phi <- rd (p_PHIl prev) l ;;
                 add_oscillator_c k (o_simd o) aout 160 amp (cosf o phi) (sinf o phi) (sinf o pw0l) (cosf o pw0l)
               else Ok aout) ;;
      (if cur_voiced then
         amp <- rd (p_Ml cur) l ;; phi <- rd (p_PHIl cur) l ;;
         let ph := start_c k phi cw0l in
         add_oscillator_c (fun s => k (s + 100)) (o_simd o) aout 0 amp (cosf o ph) (sinf o ph) (sinf o cw0l) (cosf o cw0l)
       else Ok aout)
  else Ok aout.

(* mbelib.c:981: for (l = 1; l <= maxl; l++) *)
Definition voiced_c (k : Z -> contraction) (o : oracle) (cw0 pw0 : f32) (cur prev : parms) (maxl : Z) (aout : list f32) : res (list f32) :=
  for_up 1 (maxl + 1) (fun l => add_harmonic_c (k l) o cw0 pw0 cur prev l) aout.
