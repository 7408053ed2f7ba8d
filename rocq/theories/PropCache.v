(* Property theorems C60: the thread-local cosine caches. *)
From Coq Require Import ZArith List Bool.
From Verif Require Import Res F32 MParms MSynth MImbe MAmbe MCache SpecState SpecCache PCache PMachine.
Import ListNotations.
Local Open Scope Z_scope.

(* C60: over every history of decode calls of a thread, from the zeroed cache, the caching decoder answers exactly as
   the one without a cache, including which calls are undefined. *)
Theorem C60_imbe : forall o xs, cached_decodes (call_imbe_cached o) xs imbe_cache0 = decodes (call_imbe o) xs.
Proof. exact imbe_history. Qed.
Print Assumptions C60_imbe.
Theorem C60_ambe2450 : forall o xs, cached_decodes (call_2450_cached o) xs ambe_cache0 = decodes (call_2450 o) xs.
Proof. exact ambe2450_history. Qed.
Print Assumptions C60_ambe2450.
Theorem C60_ambe2400 : forall o xs, cached_decodes (call_2400_cached o) xs ambe_cache0 = decodes (call_2400 o) xs.
Proof. exact ambe2400_history. Qed.
Print Assumptions C60_ambe2400.

(* two voice frames are decoded, the second from the filled cache *)
Example C60_case : match cached_decodes (call_imbe_cached zero_oracle) (repeat (repeat 0 88, imbe_initial, imbe_initial, 0) 2) imbe_cache0 with
  | Ok [(0, m, _); (0, m', _)] => (p_L m =? 9) && (p_L m' =? 9) | _ => false end = true.
Proof. vm_compute. reflexivity. Qed.
