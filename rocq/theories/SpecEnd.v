(* Specification of the frame process calls end to end, independent of the model of error correction: a frame that was
   sent, the frame that arrived, and the parameter call the arrival amounts to. *)
From Coq Require Import ZArith List Bool.
From Verif Require Import Res F32 MParms MImbe MAmbe SpecEcc SpecFrame SpecState SpecMachine SpecAmbeMachine.
Import ListNotations.
Local Open Scope Z_scope.

(* one reception: the parameters sent, the frame sent, the frame that arrived, the caller's parameter buffer, the
   unvoiced quality and the caller's sample buffer *)
Record reception := mkrx { rx_params : list Z; rx_sent : list (list Z); rx_got : list (list Z);
  rx_scratch : list Z; rx_uv : Z; rx_buf : list f32 }.

(* outputs, status strings and both error counts of a run of frame calls, in order *)
Definition run_out := (list f32 * list Z * Z * Z)%type.
Fixpoint frames (F : reception -> dstate -> tls -> res (frame_out f32)) (rs : list reception) (st : dstate) (t : tls)
  : res (list run_out * dstate * tls) :=
  match rs with
  | [] => Ok ([], st, t)
  | r :: rs => x <- F r st t ;; '(l, st, t) <- frames F rs (fo_st x) (fo_tls x) ;;
      Ok ((fo_aout x, fo_str x, fo_errs x, fo_errs2 x) :: l, st, t)
  end.
(* a run of parameter calls with given counts *)
Fixpoint datas (D : reception -> dstate -> tls -> res (list f32 * list Z * dstate * tls)) (e0 e : reception -> Z)
    (rs : list reception) (st : dstate) (t : tls) : res (list run_out * dstate * tls) :=
  match rs with
  | [] => Ok ([], st, t)
  | r :: rs => '(b, s, st, t) <- D r st t ;; '(l, st, t) <- datas D e0 e rs st t ;; Ok ((b, s, e0 r, e r) :: l, st, t)
  end.

(* ---- AMBE ---- *)
Definition ambe_received (r : reception) : Prop :=
  is_bits 49 (rx_params r) /\ ambe_encoded (rx_params r) (rx_sent r) /\ ambe_frame (rx_got r) /\
  ambe_channel (rx_sent r) (rx_got r) /\ length (rx_scratch r) = 49%nat.
(* errors counted in the first word: the flipped data bits, or else one if the 24 received bits have odd parity *)
Definition ambe_first (r : reception) : Z :=
  let n := ambe_c0_flips (rx_sent r) (rx_got r) in
  if 0 <? n then n else if Z.odd (fold_right Z.add 0 (nth 0 (rx_got r) [])) then 1 else 0.
Definition ambe_all (r : reception) : Z := ambe_first r + ambe_c1_flips (rx_sent r) (rx_got r).
Definition ambe_meant (r : reception) : ambe_call :=
  mkambe_call (rx_params r) (ambe_all r) (ambe_first r) true (rx_uv r) (rx_buf r).
Definition frame2450 (o : oracle) (a : Z) (r : reception) : dstate -> tls -> res (frame_out f32) :=
  fun st t => mbe_processAmbe3600x2450Framef o a (rx_buf r) (rx_got r) (rx_scratch r) st (rx_uv r) t.
Definition frame2400 (o : oracle) (a : Z) (r : reception) : dstate -> tls -> res (frame_out f32) :=
  fun st t => mbe_processAmbe3600x2400Framef o a (rx_buf r) (rx_got r) (rx_scratch r) st (rx_uv r) t.

(* ---- IMBE 7200x4400 ---- *)
Definition imbe7200_received (r : reception) : Prop :=
  is_bits 88 (rx_params r) /\ imbe7200_encoded (rx_params r) (rx_sent r) /\ imbe7200_frame (rx_sent r) /\
  imbe7200_frame (rx_got r) /\ imbe7200_channel (rx_sent r) (rx_got r) /\ length (rx_scratch r) = 88%nat.
Definition imbe7200_first (r : reception) : Z := golay_flips 0 (rx_sent r) (rx_got r).
Definition imbe7200_fifth (r : reception) : Z := hamming_flips 4 (rx_sent r) (rx_got r).
Definition imbe7200_all (r : reception) : Z :=
  imbe7200_first r + golay_flips 1 (rx_sent r) (rx_got r) + golay_flips 2 (rx_sent r) (rx_got r) + golay_flips 3 (rx_sent r) (rx_got r)
  + imbe7200_fifth r + hamming_flips 5 (rx_sent r) (rx_got r) + hamming_flips 6 (rx_sent r) (rx_got r).
Definition frame7200 (o : oracle) (a : Z) (r : reception) : dstate -> tls -> res (frame_out f32) :=
  fun st t => mbe_processImbe7200x4400Framef o a (rx_buf r) (rx_got r) (rx_scratch r) st (rx_uv r) t.
Definition meant7200 (o : oracle) (a : Z) (r : reception) (st : dstate) (t : tls) : res (list f32 * list Z * dstate * tls) :=
  imbe_do o a (mkimbe_call (rx_params r) (imbe7200_all r) (imbe7200_first r) true (rx_uv r) (rx_buf r))
    (set_errorCount4 (imbe7200_fifth r) (cur_of st), prev_of st, enh_of st) t.

(* ---- IMBE 7100x4400 ---- *)
Definition imbe7100_received (r : reception) : Prop :=
  is_bits 88 (rx_params r) /\ imbe7100_encoded (rx_params r) (rx_sent r) /\ imbe7100_frame (rx_sent r) /\
  imbe7100_frame (rx_got r) /\ imbe7100_channel (rx_sent r) (rx_got r) /\ length (rx_scratch r) = 88%nat.
Definition imbe7100_first (r : reception) : Z := hdist (slice 12 7 (nth 0 (rx_got r) [])) (slice 12 7 (nth 0 (rx_sent r) [])).
Definition imbe7100_fifth (r : reception) : Z := hamming_flips 4 (rx_sent r) (rx_got r).
Definition imbe7100_all (r : reception) : Z :=
  imbe7100_first r + hdist (slice 12 12 (nth 1 (rx_got r) [])) (slice 12 12 (nth 1 (rx_sent r) []))
  + golay_flips 2 (rx_sent r) (rx_got r) + golay_flips 3 (rx_sent r) (rx_got r)
  + imbe7100_fifth r + hamming_flips 5 (rx_sent r) (rx_got r).
Definition frame7100 (o : oracle) (a : Z) (r : reception) : dstate -> tls -> res (frame_out f32) :=
  fun st t => mbe_processImbe7100x4400Framef o a (rx_buf r) (rx_got r) (rx_scratch r) st (rx_uv r) t.
Definition meant7100 (o : oracle) (a : Z) (r : reception) (st : dstate) (t : tls) : res (list f32 * list Z * dstate * tls) :=
  imbe_do o a (mkimbe_call (reorder7200 (Z.to_nat (imbe_bands (pitch7100 (rx_params r)))) (rx_params r))
      (imbe7100_all r) (imbe7100_first r) true (rx_uv r) (rx_buf r))
    (set_errorCount4 (imbe7100_fifth r) (cur_of st), prev_of st, enh_of st) t.


(* the frame call f is the parameter call g, reporting the counts c0, n and the parameters d *)
Definition amounts_to (f : res (frame_out f32)) (g : res (list f32 * list Z * dstate * tls)) (c0 n : Z) (d : list Z) : Prop :=
  match g with
  | Ok (b, s, st, t) => exists x, f = Ok x /\ fo_aout x = b /\ fo_str x = s /\ fo_errs x = c0 /\ fo_errs2 x = n /\ fo_d x = d /\ fo_st x = st /\ fo_tls x = t
  | UB u => f = UB u
  end.
