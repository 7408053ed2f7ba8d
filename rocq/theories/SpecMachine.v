(* Specification of the process calls as a state machine over frames, independent of the model: which states are
   admissible, which frames are concealed by repetition, and how the counters move. *)
From Coq Require Import ZArith List Bool.
From Verif Require Import Res F32 MParms MImbe SpecEcc SpecFrame SpecState SpecAdaptive SpecGen SpecWola SpecImbe.
Import ListNotations.
Local Open Scope Z_scope.

(* a stored noise seed: cold (negative) or a value of the 53125-cycle *)
Definition noise_seed_ok (x : f32) : Prop := flt x (S754_zero false) = true \/ exists z, 0 <= z < 53125 /\ x = f_of_Z z.
Definition thread_ok (t : tls) : Prop := 0 <= cold_seed t < 53125.
(* a parameter set as the library leaves it *)
Definition sane (m : parms) : Prop :=
  wf_parms m /\ 0 <= p_L m <= 56 /\ pitch_in_range (p_w0 m) /\ noise_seed_ok (p_noiseSeed m) /\
  0 <= p_errorCountTotal m <= 100 /\ p_repeat m = p_repeatCount m /\ 0 <= p_repeatCount m <= 4.
Definition sane_state (st : parms * parms * parms) : Prop := let '(cur, prev, enh) := st in sane cur /\ sane prev /\ sane enh.
(* room for one more frame below INT_MAX *)
Definition threshold_room (m : parms) : Prop := p_amplitudeThreshold m <= 2147483647 - 6000.

(* ---- IMBE ---- *)
(* the filtered error rate after a frame with n errors *)
Definition imbe_rate (prev : f32) (n : Z) : f32 := fadd (fmul (flit 95 100) prev) (fmul (flit 365 1000000) (f_of_Z n)).
(* must the frame be concealed?  c0: the errors corrected in the first code word, if known *)
Definition imbe_needs (d : list Z) (n : Z) (rate : f32) (c0 : option Z) : bool :=
  (207 <? pitch7200 d) ||
  match c0 with
  | Some c => (2 <=? c) && fle (fadd (f_of_Z 10) (fmul (f_of_Z 40) rate)) (f_of_Z n)
  | None => 5 <? n
  end.
Definition context (c0 : Z) (valid : bool) : option Z := if valid then Some c0 else None.
(* consecutive concealed frames: 1, 2, 3, 4, then 0 again *)
Definition next_count (need : bool) (c : Z) : Z := if need then (if c <? 4 then c + 1 else 0) else 0.

(* does the status string carry the marker? *)
Definition marked (c : Z) (s : list Z) : bool := existsb (Z.eqb c) s.

(* ---- streams of IMBE parameter frames ---- *)
Record imbe_call := mkimbe_call { ic_bits : list Z; ic_errors : Z; ic_c0 : Z; ic_c0_known : bool; ic_uv : Z; ic_buf : list f32 }.
Definition call_ok (c : imbe_call) : Prop := is_bits 88 (ic_bits c) /\ 0 <= ic_errors c <= 100 /\ length (ic_buf c) = 160%nat.
Definition imbe_do (o : oracle) (a : Z) (c : imbe_call) (st : dstate) (t : tls) : res (list f32 * list Z * dstate * tls) :=
  mbe_processImbe4400Dataf_withC0 o a (ic_buf c) (ic_errors c) (ic_bits c) st (ic_uv c) (ic_c0 c) (ic_c0_known c) t.
(* the outputs and status strings of a stream, in order *)
Fixpoint imbe_stream (o : oracle) (a : Z) (cs : list imbe_call) (st : dstate) (t : tls) : res (list (list f32 * list Z) * dstate * tls) :=
  match cs with
  | [] => Ok ([], st, t)
  | c :: cs => '(b, s, st, t) <- imbe_do o a c st t ;; '(r, st, t) <- imbe_stream o a cs st t ;; Ok ((b, s) :: r, st, t)
  end.
Definition prev_of (st : dstate) : parms := let '(_, prev, _) := st in prev.
Definition cur_of (st : dstate) : parms := let '(cur, _, _) := st in cur.
Definition enh_of (st : dstate) : parms := let '(_, _, enh) := st in enh.
(* the repeat counter after a stream with the given status strings *)
Definition count_after (c : Z) (strs : list (list Z)) : Z := fold_left (fun c s => next_count (marked 82 s) c) strs c.
(* an error rate between 0 and hi *)
Definition rate_in (hi x : f32) : Prop := binary32 x /\ finite x /\ fle (S754_zero false) x = true /\ fle x hi = true.
(* the noise seed a synthesised frame leaves when it starts from seed s on thread t *)
Definition seed_after (s : f32) (t : tls) (s' : f32) : Prop :=
  (cold s = true -> s' = f_of_Z (cold_seed t)) /\ (forall z, 0 <= z < 53125 -> s = f_of_Z z -> s' = f_of_Z (lcg_state z 160)).
(* the IMBE muting threshold is in place *)
Definition imbe_threshold (st : dstate) : Prop := p_mutingThreshold (prev_of st) = flit 875 10000.
(* the pitch code does not give 56 harmonics *)
Definition few_harmonics (c : imbe_call) : Prop := pitch7200 (ic_bits c) < 204 \/ 207 < pitch7200 (ic_bits c).
(* the states after IMBE and AMBE initialisation *)
Definition start : dstate := (imbe_initial, imbe_initial, imbe_initial).
Definition start_ambe : dstate := (ambe_initial, ambe_initial, ambe_initial).
(* the same spectral model: pitch, bands, voicing and the amplitudes of the bands present *)
Definition same_model (m m' : parms) : Prop :=
  p_w0 m' = p_w0 m /\ p_L m' = p_L m /\ p_K m' = p_K m /\ p_Vl m' = p_Vl m /\ p_gamma m' = p_gamma m /\
  forall l, l <= p_L m -> rd (p_Ml m') l = rd (p_Ml m) l /\ rd (p_log2Ml m') l = rd (p_log2Ml m) l.
