(* C94: tones in a build that fuses products and additions. *)
From Coq Require Import ZArith Reals Lra Lia List Bool.
From Verif Require Import Res F32 MParms MSynth MFft MFma MRate MToneFma SpecEcc SpecFrame SpecState SpecTone SpecTrig SpecWave SpecToneFma
  PFloat PFftErr PIdeal PNum6 PWave2 PToneFma.
Import ListNotations.
Local Open Scope R_scope.

(* C94: whatever is fused, consecutive tone frames of one identifier and amplitude are the sinusoids of its frequencies, within the bound of C76 *)
Theorem C94_frames : forall k o id hz ad fs cur, o_tones o = true -> accurate_turn o -> tone_hz id = Some hz -> (0 <= ad <= 127)%Z ->
  Forall (fun x => is_bits 49 (fst x) /\ length (snd x) = 160%nat /\ tone_id (fst x) = id) fs -> Forall (fun x => tone_amp (fst x) = ad) fs ->
  exists bufs cur', tone_frames_c k 0 o fs cur = Ok (bufs, cur') /\ sounds hz ad (to_u32 (p_swn cur)) (to_u32 (p_un cur)) (160 * length fs) (concat bufs).
Proof. exact frames_sound_c. Qed.
Print Assumptions C94_frames.
(* C94: the same for D-STAR tones *)
Theorem C94_dstar : forall k o id hz bufs cur, o_tones o = true -> accurate_turn o -> (5 <= id <= 122)%Z -> tone_hz id = Some hz -> Forall (fun b => length b = 160%nat) bufs ->
  exists r cur', dstar_frames_c k 0 o id bufs cur = Ok (r, cur') /\ sounds hz 103 (to_u32 (p_swn cur)) (to_u32 (p_un cur)) (160 * length bufs) (concat r).
Proof. exact dstar_sound_c. Qed.
Print Assumptions C94_dstar.
(* C94: whatever is fused, any sequence of tone frames leaves exactly the parameter set it leaves without fusing: the pitch is the same and phases do not drift apart *)
Theorem C94_phases : forall k o fs i cur, Forall (fun x => is_bits 49 (fst x) /\ length (snd x) = 160%nat) fs ->
  exists bc b cur', tone_frames_c k i o fs cur = Ok (bc, cur') /\ tone_frames o fs cur = Ok (b, cur').
Proof. exact same_set. Qed.
Print Assumptions C94_phases.
Theorem C94_phases_dstar : forall k o id bufs i cur, Forall (fun b => length b = 160%nat) bufs ->
  exists bc b cur', dstar_frames_c k i o id bufs cur = Ok (bc, cur') /\ dstar_frames o id bufs cur = Ok (b, cur').
Proof. exact same_set_dstar. Qed.
Print Assumptions C94_phases_dstar.
(* C94: with an accurate sine the samples stay within 0.012 of those without fusing, however many frames there are and whatever their identifiers (full level is 4447) *)
Theorem C94_close : forall k o fs i cur, accurate_turn o -> Forall (fun x => is_bits 49 (fst x) /\ length (snd x) = 160%nat) fs ->
  exists bc b cur', tone_frames_c k i o fs cur = Ok (bc, cur') /\ tone_frames o fs cur = Ok (b, cur') /\ apart_by 0.012 (concat bc) (concat b).
Proof. exact streams_apart. Qed.
Print Assumptions C94_close.
(* C94: they are not the same samples *)
Theorem C94_identical_refuted : exists k fs cur, Forall (fun x => is_bits 49 (fst x) /\ length (snd x) = 160%nat) fs /\ forall o, o_tones o = true -> tiny_sines o ->
  exists bc b cur', tone_frames_c k 0 o fs cur = Ok (bc, cur') /\ tone_frames o fs cur = Ok (b, cur') /\ bc <> b.
Proof. exact fused_identical_refuted. Qed.
Print Assumptions C94_identical_refuted.
(* fusing has something to change: the angle of phase 2^30 + 1; a thousand frames of the digit 5 then a thousand of 1000 Hz, everything fused *)
Definition key5 : list Z := (repeat 1 12 ++ [1; 0; 0; 0; 0; 1; 0; 1] ++ repeat 0 24 ++ [1] ++ repeat 0 4)%Z.
Example C94_case : d2f (dfma (d_of_Z 1073741825) TONE_RAD_PER_TICK (SFopp HALF_PI_D)) <> d2f (dsub (dmul (d_of_Z 1073741825) TONE_RAD_PER_TICK) HALF_PI_D) /\
  tone_hz (tone_id key5) = Some (133600, 77000)%Z /\
  exists bc b cur', tone_frames_c (fun _ _ => true) 0 (with_pffft (grid cos) (grid sin) ideal) (repeat (key5, repeat fzero 160) 1000 ++ repeat (sharp_d, repeat fzero 160) 1000) imbe_initial = Ok (bc, cur') /\
    tone_frames (with_pffft (grid cos) (grid sin) ideal) (repeat (key5, repeat fzero 160) 1000 ++ repeat (sharp_d, repeat fzero 160) 1000) imbe_initial = Ok (b, cur') /\ apart_by 0.012 (concat bc) (concat b).
Proof.
  split; [vm_compute; discriminate|]. split; [vm_compute; reflexivity|]. apply C94_close; [apply angles_turn, ideal_angles|].
  apply Forall_app. split; apply Forall_forall; intros x Hx; apply repeat_spec in Hx; rewrite Hx; (split; [|reflexivity]); [|exact sharp_bits].
  split; [reflexivity|]. apply Forall_forall. intros b Hb. unfold key5, is_bit in *. cbn in Hb. lia.
Qed.
