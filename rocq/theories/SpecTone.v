(* Specification of tone frames, independent of the model: identifiers, frequencies, and the two phase oscillators. *)
From Coq Require Import ZArith List Bool.
From Verif Require Import Res F32 MParms MSynth SpecEcc SpecFrame.
Import ListNotations.
Local Open Scope Z_scope.

(* the identifier and amplitude fields of a 2450 tone vector *)
Definition tone_id (d : list Z) : Z := val (rev (slice 12 8 d)).
Definition tone_amp (d : list Z) : Z := 2 * val (rev (slice 6 6 d)) + nth 44 d 0.

(* the 4 by 4 keypad 123A / 456B / 789C / *0#D: identifiers of its keys *)
Definition keypad : list (list Z) := [[129; 130; 131; 138]; [132; 133; 134; 139]; [135; 136; 137; 140]; [142; 128; 143; 141]].
Definition key_id (r c : nat) : Z := nth c (nth r keypad []) 0.
(* DTMF (ITU-T Q.23) row and column frequencies, and those of the KNOX plan, in Hz *)
Definition dtmf_row (r : nat) : Z := nth r [697; 770; 852; 941] 0.
Definition dtmf_col (c : nat) : Z := nth c [1209; 1336; 1477; 1633] 0.
Definition knox_row (r : nat) : Z := nth r [606; 672; 743; 820] 0.
Definition knox_col (c : nat) : Z := nth c [1052; 1162; 1279; 1430] 0.
Definition key_at (id : Z) : option (nat * nat) :=
  find (fun p => key_id (fst p) (snd p) =? id) (list_prod (seq 0 4) (seq 0 4)).
(* the frequencies of an identifier in hundredths of a Hertz; the second is 0 for a single tone *)
Definition tone_hz (id : Z) : option (Z * Z) :=
  if (5 <=? id) && (id <=? 122) then Some (3125 * id, 0)
  else match key_at id, key_at (id - 16) with
       | Some (r, c), _ => Some (100 * dtmf_col c, 100 * dtmf_row r)
       | None, Some (r, c) => Some (100 * knox_col c, 100 * knox_row r)
       | None, None =>
           if id =? 160 then Some (44000, 35000) else if id =? 161 then Some (48000, 44000)
           else if id =? 162 then Some (62000, 48000) else if id =? 163 then Some (49000, 35000) else None
       end.

(* the phase step per sample of a frequency at 8000 samples a second: 2^32 f / 8000, rounded to the nearest integer *)
Definition phase_step (hz100 : Z) : Z := (2 * hz100 * 2 ^ 32 + 800000) / 1600000.
(* the phase of sample k (from 0) *)
Definition osc_phase (p step k : Z) : Z := (p + step * (k + 1)) mod 2 ^ 32.
(* the sine of a 32-bit phase less a quarter turn *)
Definition osc_wave (o : oracle) (phase : Z) : f32 :=
  sinf o (d2f (dsub (dmul (d_of_Z phase) (ddiv (dmul (d_of_Z 2) M_PI) (d_of_Z 4294967296))) (ddiv M_PI (d_of_Z 2)))).
(* amplitude code 0..127 *)
Definition amp_gain (ad : Z) : f32 := fmul (fdiv (f_of_Z ad) (f_of_Z 127)) (fdiv (fmul (f_of_Z 32767) (flit 95 100)) (f_of_Z 7)).
(* sample k of the oscillator pair started at phases p1 and p2 *)
Definition tone_sample (o : oracle) (hz : Z * Z) (ad p1 p2 k : Z) : f32 :=
  let s1 := osc_wave o (osc_phase p1 (phase_step (fst hz)) k) in
  if snd hz =? 0 then fmul (amp_gain ad) s1
  else let s2 := osc_wave o (osc_phase p2 (phase_step (snd hz)) k) in
       fadd (fmul (fmul (fdiv (f_of_Z 1) (f_of_Z 2)) (amp_gain ad)) s1) (fmul (fmul (fdiv (f_of_Z 1) (f_of_Z 2)) (amp_gain ad)) s2).
(* the stored phases, as C int, after n samples *)
Definition stored_phase (p step n : Z) : Z := to_i32 ((p + step * n) mod 2 ^ 32).

(* consecutive tone frames into one buffer after another *)
Fixpoint tone_frames (o : oracle) (fs : list (list Z * list f32)) (cur : parms) : res (list (list f32) * parms) :=
  match fs with
  | [] => Ok ([], cur)
  | (d, buf) :: fs => '(b, cur) <- mbe_synthesizeTonef o buf d cur ;; '(r, cur) <- tone_frames o fs cur ;; Ok (b :: r, cur)
  end.
Fixpoint dstar_frames (o : oracle) (id : Z) (bufs : list (list f32)) (cur : parms) : res (list (list f32) * parms) :=
  match bufs with
  | [] => Ok ([], cur)
  | buf :: bufs => '(b, cur) <- mbe_synthesizeTonefdstar o buf cur id ;; '(r, cur) <- dstar_frames o id bufs cur ;; Ok (b :: r, cur)
  end.
(* frame number f (from 0) of amplitude ad of the pair *)
Definition tone_frame (o : oracle) (hz : Z * Z) (p1 p2 : Z) (f : nat) (ad : Z) : list f32 :=
  map (fun i => tone_sample o hz ad p1 p2 (Z.of_nat (160 * f + i))) (seq 0 160).
(* a frame of the tone, played from the phases of a parameter set; a build without tones plays zeros *)
Definition tone_heard (o : oracle) (hz : Z * Z) (ad : Z) (c : parms) : list f32 :=
  if o_tones o then tone_frame o hz (to_u32 (p_swn c)) (to_u32 (p_un c)) 0 ad else repeat (S754_zero false) 160.
(* a parameter set that takes over the phases of c, 160 samples later; a build without tones leaves its phases *)
Definition tone_turned (o : oracle) (hz : Z * Z) (c m : parms) : parms :=
  if o_tones o then set_un (stored_phase (to_u32 (p_un c)) (phase_step (snd hz)) 160) (set_swn (stored_phase (to_u32 (p_swn c)) (phase_step (fst hz)) 160) m) else m.
