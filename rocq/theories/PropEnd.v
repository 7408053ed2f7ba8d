(* Property theorems C59: the frame process calls end to end. *)
From Coq Require Import ZArith List Bool.
From Verif Require Import Res F32 MParms MImbe MAmbe SpecEcc SpecFrame SpecState SpecMachine SpecAmbeMachine SpecEnd PEnd.
Import ListNotations.
Local Open Scope Z_scope.

(* C59: a run of frames, each an encoding of some parameters hit by correctable errors, gives the samples, strings,
   counts and states of the parameter calls on the parameters sent, with the exact numbers of errors. *)
Theorem C59_imbe7200 : forall o a rs st t, Forall imbe7200_received rs ->
  frames (frame7200 o a) rs st t = datas (meant7200 o a) imbe7200_first imbe7200_all rs st t.
Proof. exact run7200. Qed.
Print Assumptions C59_imbe7200.
Example C59_7200_case : imbe7200_received imbe7200_hit /\ imbe7200_first imbe7200_hit = 2 /\ imbe7200_fifth imbe7200_hit = 1 /\ imbe7200_all imbe7200_hit = 7.
Proof. exact imbe7200_hit_ok. Qed.

Theorem C59_imbe7100 : forall o a rs st t, Forall imbe7100_received rs ->
  frames (frame7100 o a) rs st t = datas (meant7100 o a) imbe7100_first imbe7100_all rs st t.
Proof. exact run7100. Qed.
Print Assumptions C59_imbe7100.
Example C59_7100_case : imbe7100_received imbe7100_hit /\ imbe7100_first imbe7100_hit = 3 /\ imbe7100_fifth imbe7100_hit = 1 /\ imbe7100_all imbe7100_hit = 8.
Proof. exact imbe7100_hit_ok. Qed.

Theorem C59_ambe2450 : forall o a rs st t, Forall ambe_received rs ->
  frames (frame2450 o a) rs st t = datas (fun r => do2450 o a (ambe_meant r)) ambe_first ambe_all rs st t.
Proof. exact run2450. Qed.
Print Assumptions C59_ambe2450.
Theorem C59_ambe2400 : forall o a rs st t, Forall ambe_received rs ->
  frames (frame2400 o a) rs st t = datas (fun r => do2400 o a (ambe_meant r)) ambe_first ambe_all rs st t.
Proof. exact run2400. Qed.
Print Assumptions C59_ambe2400.
Example C59_ambe_case : ambe_received ambe_hit /\ ambe_first ambe_hit = 1 /\ ambe_all ambe_hit = 4.
Proof. exact ambe_hit_ok. Qed.

(* and any frame at all amounts to a parameter call on some parameter bits with counts in range *)
Theorem C59_any7200 : forall o a fr d0 buf uv st t, imbe7200_frame fr -> length d0 = 88%nat ->
  exists d c0 n c4, is_bits 88 d /\ 0 <= c0 <= 3 /\ c0 <= n <= 15 /\ 0 <= c4 <= 1 /\
    amounts_to (mbe_processImbe7200x4400Framef o a buf fr d0 st uv t)
      (imbe_do o a (mkimbe_call d n c0 true uv buf) (set_errorCount4 c4 (cur_of st), prev_of st, enh_of st) t) c0 n d.
Proof. exact any7200. Qed.
Print Assumptions C59_any7200.
Theorem C59_any7100 : forall o a fr d0 buf uv st t, imbe7100_frame fr -> length d0 = 88%nat ->
  exists d c0 n c4, is_bits 88 d /\ 0 <= c0 <= 3 /\ c0 <= n <= 14 /\ 0 <= c4 <= 1 /\
    amounts_to (mbe_processImbe7100x4400Framef o a buf fr d0 st uv t)
      (imbe_do o a (mkimbe_call d n c0 true uv buf) (set_errorCount4 c4 (cur_of st), prev_of st, enh_of st) t) c0 n d.
Proof. exact any7100. Qed.
Print Assumptions C59_any7100.
Theorem C59_any2450 : forall o a fr d0 buf uv st t, ambe_frame fr -> length d0 = 49%nat ->
  exists d c0 n, is_bits 49 d /\ 0 <= c0 <= 3 /\ c0 <= n <= 6 /\
    amounts_to (mbe_processAmbe3600x2450Framef o a buf fr d0 st uv t) (do2450 o a (mkambe_call d n c0 true uv buf) st t) c0 n d.
Proof. exact any2450. Qed.
Print Assumptions C59_any2450.
Theorem C59_any2400 : forall o a fr d0 buf uv st t, ambe_frame fr -> length d0 = 49%nat ->
  exists d c0 n, is_bits 49 d /\ 0 <= c0 <= 3 /\ c0 <= n <= 6 /\
    amounts_to (mbe_processAmbe3600x2400Framef o a buf fr d0 st uv t) (do2400 o a (mkambe_call d n c0 true uv buf) st t) c0 n d.
Proof. exact any2400. Qed.
Print Assumptions C59_any2400.
