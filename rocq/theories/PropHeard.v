(* Property C81: what is received does not depend on how it is made to sound. *)
From Coq Require Import ZArith List Bool.
From Verif Require Import Res F32 MParms MAdaptive MImbe MAmbe SpecEcc SpecState SpecMachine SpecAmbeMachine SpecHeard PStream PAmbeStream PHeard PropMachine.
Import ListNotations.
Local Open Scope Z_scope.

(* C81, IMBE: two decoders with the same history that get the same frames report the same status strings and keep the same
   history, whatever the transforms, sinf and expf, the build (scalar, SSE2 or NEON), the plan, the thread state, the address
   of the parameter set, the unvoiced quality, the output buffers and the energies, phases and noise states *)
Theorem C81_imbe : forall o o' a a' cs cs' st st' t t' r r' u u' v v',
  decode_alike o o' -> Forall2 same_call cs cs' -> Forall call_ok cs -> Forall call_ok cs' -> sane_state st -> sane_state st' -> thread_ok t -> thread_ok t' -> same_history st st' ->
  imbe_stream o a cs st t = Ok (r, u, v) -> imbe_stream o' a' cs' st' t' = Ok (r', u', v') ->
  map snd r = map snd r' /\ same_history u u'.
Proof. exact imbe_streams_heard. Qed.
Print Assumptions C81_imbe.

(* C81, AMBE, both rates *)
Theorem C81_ambe : forall r o o' a a' cs cs' st st' t t' q q' u u' v v',
  decode_alike o o' -> good_exp2 o r -> Forall2 same_frame cs cs' -> Forall ambe_ok cs -> Forall ambe_ok cs' -> sane_state st -> sane_state st' -> thread_ok t -> thread_ok t' -> same_history st st' ->
  ambe_stream (do_ambe r o a) cs st t = Ok (q, u, v) -> ambe_stream (do_ambe r o' a') cs' st' t' = Ok (q', u', v') ->
  map snd q = map snd q' /\ same_history u u'.
Proof. exact ambe_streams_heard. Qed.
Print Assumptions C81_ambe.

(* a library that decodes like zero_oracle and sounds different; a decoder that remembers other phases and noise *)
Definition other : oracle := mkoracle (o_cosf zero_oracle) (fun _ => flit 1 2) (o_exp2f zero_oracle) (o_log2f zero_oracle) (fun _ => flit 3 1) (fun _ _ => flit 7 1) (fun _ _ => flit 5 1) true Sse2 false.
Definition noisy (m : parms) : parms := set_noiseSeed (f_of_Z 1234) (set_PHIl (repeat (flit 1 3) 57) (set_PSIl (repeat (flit 1 7) 57) (set_localEnergy (flit 9 1) m))).
Definition noisy_start : dstate := (noisy imbe_initial, noisy imbe_initial, noisy (noisy imbe_initial)).
Definition with_quality (q : Z) (c : imbe_call) : imbe_call := mkimbe_call (ic_bits c) (ic_errors c) (ic_c0 c) (ic_c0_known c) q (repeat (flit 1 1) 160).
Example C81_alike : decode_alike zero_oracle other /\ same_call good (with_quality 5 good) /\ same_history start noisy_start.
Proof.
  split; [repeat split|]. split; [repeat split|]. split; [unfold heard; auto 20|]. split; [unfold heard; auto 20|]. split; [vm_compute; split; discriminate|]. intros l _. split; reflexivity.
Qed.
Definition show (x : res (list (list f32 * list Z) * dstate * tls)) : list (list Z) * Z * list f32 :=
  match x with Ok (r, st, _) => (map snd r, p_L (prev_of st), map (fun y => hd fzero (fst y)) r) | UB _ => ([], 0, []) end.
Example C81_case : let x := show (imbe_stream zero_oracle 1 [good; bad] start t0) in let y := show (imbe_stream other 2 (map (with_quality 5) [good; bad]) noisy_start t0) in
  fst x = fst y /\ fst x = ([[0]; [82; 0]], 9) /\ snd x <> snd y.
Proof. vm_compute. split; [reflexivity|]. split; [reflexivity|discriminate]. Qed.
