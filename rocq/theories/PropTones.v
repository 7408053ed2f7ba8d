(* C83: a build without tone synthesis plays silence for tones and is otherwise the same decoder. *)
From Coq Require Import ZArith List Bool.
From Verif Require Import Res F32 MParms MSynth MImbe MAmbe MApi SpecFrame SpecState SpecAdaptive SpecGen SpecMachine SpecTone SpecAmbeMachine SpecTone2 SpecTones PGen PStream PAmbeStream PSim2 PTones.
Import ListNotations.
Local Open Scope Z_scope.

(* the two tone functions give 160 zeros and leave the parameter set, whatever the bits and the identifier *)
Theorem C83_tone : forall o buf d cur, length buf = 160%nat -> mbe_synthesizeTonef (without_tones o) buf d cur = Ok (silent, cur).
Proof. exact tone_off. Qed.
Print Assumptions C83_tone.
Theorem C83_dstar : forall o buf cur id, length buf = 160%nat -> mbe_synthesizeTonefdstar (without_tones o) buf cur id = Ok (silent, cur).
Proof. exact dstar_silent. Qed.
Print Assumptions C83_dstar.
(* a stream of 2450 calls: the same undefined behaviour, or the same status strings and samples except zeros at tones, the same voice decoder afterwards, the same thread state *)
Theorem C83_stream : forall o a cs st t, Forall ambe_ok cs -> sane_state st -> thread_ok t ->
  match ambe_stream (do2450 o a) cs st t, ambe_stream (do2450 (without_tones o) a) cs st t with
  | Ok (r, st1, t1), Ok (r', st2, t2) => Forall silenced (combine cs (combine r r')) /\ length r = length cs /\ length r' = length cs /\ same_voice st1 st2 /\ t1 = t2
  | UB w, UB w' => w = w'
  | _, _ => False
  end.
Proof. exact tones_off. Qed.
Print Assumptions C83_stream.
(* a stream of 2400 calls: no difference at all, for tones are never heard there *)
Theorem C83_2400 : forall o a cs st t, good_exp2 o R2400 -> Forall ambe_ok cs -> sane_state st -> thread_ok t -> ambe_stream (do2400 (without_tones o) a) cs st t = ambe_stream (do2400 o a) cs st t.
Proof. exact stream2400_wt. Qed.
Print Assumptions C83_2400.
(* any schedule of calls that synthesise no tone (IMBE, parameter decoding, enhancement, speech, noise), on any memory: no difference *)
Theorem C83_rest : forall o s h T, Forall (fun x => may_tone (snd x) = false) s -> run (without_tones o) s h T = run o s h T.
Proof. exact run_wt. Qed.
Print Assumptions C83_rest.
(* the digit 5 at full level, a concealed frame and the digit again; with a sine of one the digit is heard in the one build and not in the other *)
Definition key5 : ambe_call := mkambe_call (repeat 1 12 ++ [1; 0; 0; 0; 0; 1; 0; 1] ++ repeat 0 24 ++ [1] ++ repeat 0 4) 0 0 true 3 (repeat fzero 160).
Definition quiet (o : oracle) : list bool := match ambe_stream (do2450 o 1) [key5; lost; key5] start_ambe thread0 with Ok (r, _, _) => map (fun x => SFeqb (hd fzero (fst x)) fzero) r | UB _ => [] end.
Example C83_case : map is_tone [key5; lost; key5] = [true; false; true] /\ quiet loud_oracle = [false; true; false] /\ quiet (without_tones loud_oracle) = [true; true; true].
Proof. vm_compute. auto. Qed.
