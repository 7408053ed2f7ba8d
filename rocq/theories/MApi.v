(* Model of the public functions that work on parameter sets in memory or on thread-local state, as one transition
   function over a memory of parameter sets (/repo/include/mbelib-neo/mbelib.h:180-516).  The address of a set is a
   non-negative number; MAmbe.local_addr (-1) is the one set the library keeps on its own stack.  Every variable of the
   library with static storage that is written after program start is MBE_THREAD_LOCAL (/repo/src/internal/mbe_compiler.h:28-42;
   mbelib.c:58, 61, 1169; mbe_adaptive.c:24-29; mbe_unvoiced_fft.c:28-29; the three cosine caches of MCache): the record tls,
   one per thread.  Left out: sets passed twice to one call, NULL arguments, the FFT plan pointer (MProcess
   adds it), the conversion pointer (a function of the thread's first use only), and the caches (MCache: they never change results). *)
From Coq Require Import ZArith List Bool.
From Verif Require Import Res F32 MFrame MParms MAdaptive MUnvoiced MSynth MImbe MAmbe.
Import ListNotations.
Local Open Scope Z_scope.

Definition heap := Z -> parms.
Definition put (a : Z) (m : parms) (h : heap) : heap := fun b => if b =? a then m else h b.

Inductive data_format := DImbe | D2450 | D2400.
Inductive frame_format := F7200 | F7100 | F2450 | F2400.
(* one call: buffers and scalars by value, parameter sets by address *)
Inductive call :=
| Init (c p e : Z)                                                    (* mbe_initMbeParms *)
| Move (src dst : Z)                                                  (* mbe_moveMbeParms *)
| UseLast (dst src : Z)                                               (* mbe_useLastMbeParms *)
| Enhance (c : Z)                                                     (* mbe_spectralAmpEnhance *)
| Smooth (c p : Z)                                                    (* mbe_applyAdaptiveSmoothing *)
| AskMuting (c : Z) | AskRepeat (c : Z) | AskSmoothing (c : Z)        (* mbe_requiresMuting, mbe_isMaxFrameRepeat, mbe_requiresAdaptiveSmoothing *)
| Speechf (buf : list f32) (c p uv : Z)                               (* mbe_synthesizeSpeechf *)
| Speech (buf : list Z) (c p uv : Z)                                  (* mbe_synthesizeSpeech *)
| Tonef (buf : list f32) (d : list Z) (c : Z)                         (* mbe_synthesizeTonef *)
| Tonefdstar (buf : list f32) (c id : Z)                              (* mbe_synthesizeTonefdstar *)
| Decode (f : data_format) (d : list Z) (c p : Z)                     (* mbe_decode*Parms *)
| Dataf (f : data_format) (buf : list f32) (errs errs2 : Z) (d : list Z) (c p e uv : Z)   (* mbe_process*Dataf *)
| Data (f : data_format) (buf : list Z) (errs errs2 : Z) (d : list Z) (c p e uv : Z)      (* mbe_process*Data *)
| Framef (f : frame_format) (buf : list f32) (fr : list (list Z)) (d : list Z) (c p e uv : Z)  (* mbe_process*Framef *)
| Frame (f : frame_format) (buf : list Z) (fr : list (list Z)) (d : list Z) (c p e uv : Z)     (* mbe_process*Frame *)
| Seed (s : Z)                                                        (* mbe_setThreadRngSeed *)
| Noisef (buf : list f32) | Noise (buf : list Z).                     (* mbe_synthesizeComfortNoisef, mbe_synthesizeComfortNoise *)

(* what a call returns or writes to the caller's buffers *)
Inductive answer :=
| Nothing | Number (z : Z) | Floats (l : list f32) | Shorts (l : list Z)
| FloatsStatus (l : list f32) (s : list Z) | ShortsStatus (l s : list Z)
| FrameFloats (l : list f32) (errs errs2 : Z) (s : list Z) (fr : list (list Z)) (d : list Z)
| FrameShorts (l : list Z) (errs errs2 : Z) (s : list Z) (fr : list (list Z)) (d : list Z).

Definition put3 (c p e : Z) (st : dstate) (h : heap) : heap := let '(x, y, z) := st in put e z (put p y (put c x h)).
Definition do_dataf (f : data_format) := match f with DImbe => mbe_processImbe4400Dataf | D2450 => mbe_processAmbe2450Dataf | D2400 => mbe_processAmbe2400Dataf end.
Definition do_data (f : data_format) := match f with DImbe => mbe_processImbe4400Data | D2450 => mbe_processAmbe2450Data | D2400 => mbe_processAmbe2400Data end.
Definition do_decode (f : data_format) := match f with DImbe => mbe_decodeImbe4400Parms | D2450 => mbe_decodeAmbe2450Parms | D2400 => mbe_decodeAmbe2400Parms end.
Definition do_framef (f : frame_format) := match f with
  F7200 => mbe_processImbe7200x4400Framef | F7100 => mbe_processImbe7100x4400Framef
| F2450 => mbe_processAmbe3600x2450Framef | F2400 => mbe_processAmbe3600x2400Framef end.
Definition do_frame (f : frame_format) := match f with
  F7200 => mbe_processImbe7200x4400Frame | F7100 => mbe_processImbe7100x4400Frame
| F2450 => mbe_processAmbe3600x2450Frame | F2400 => mbe_processAmbe3600x2400Frame end.

(* one call on the shared memory and the caller's thread-local state *)
Definition api (o : oracle) (k : call) (h : heap) (t : tls) : res (answer * heap * tls) :=
  match k with
  | Init c p e => st <- mbe_initMbeParms (h c) (h p) (h e) ;; Ok (Nothing, put3 c p e st h, t)
  | Move src dst => Ok (Nothing, put dst (mbe_moveMbeParms (h src)) h, t)
  | UseLast dst src => Ok (Nothing, put dst (mbe_useLastMbeParms (h src)) h, t)
  | Enhance c => '(m, t) <- mbe_spectralAmpEnhance o c (h c) t ;; Ok (Nothing, put c m h, t)
  | Smooth c p => '(m, t) <- mbe_applyAdaptiveSmoothing o c (h c) (h p) t ;; Ok (Nothing, put c m h, t)
  | AskMuting c => Ok (Number (if mbe_requiresMuting (h c) then 1 else 0), h, t)
  | AskRepeat c => Ok (Number (if mbe_isMaxFrameRepeat (h c) then 1 else 0), h, t)
  | AskSmoothing c => Ok (Number (if mbe_requiresAdaptiveSmoothing (h c) then 1 else 0), h, t)
  | Speechf buf c p uv =>
      '(b, m, q, t) <- mbe_synthesizeSpeechf o buf c (h c) (h p) uv t ;; Ok (Floats b, put p q (put c m h), t)
  | Speech buf c p uv =>
      '(b, m, q, t) <- mbe_synthesizeSpeech o buf c (h c) (h p) uv t ;; Ok (Shorts b, put p q (put c m h), t)
  | Tonef buf d c => '(b, m) <- mbe_synthesizeTonef o buf d (h c) ;; Ok (Floats b, put c m h, t)
  | Tonefdstar buf c id => '(b, m) <- mbe_synthesizeTonefdstar o buf (h c) id ;; Ok (Floats b, put c m h, t)
  | Decode f d c p => '(bad, m, q) <- do_decode f o d (h c) (h p) ;; Ok (Number bad, put p q (put c m h), t)
  | Dataf f buf errs errs2 d c p e uv =>
      '(b, s, st, t) <- do_dataf f o c buf errs errs2 d (h c, h p, h e) uv t ;; Ok (FloatsStatus b s, put3 c p e st h, t)
  | Data f buf errs errs2 d c p e uv =>
      '(b, s, st, t) <- do_data f o c buf errs errs2 d (h c, h p, h e) uv t ;; Ok (ShortsStatus b s, put3 c p e st h, t)
  | Framef f buf fr d c p e uv =>
      r <- do_framef f o c buf fr d (h c, h p, h e) uv t ;;
      Ok (FrameFloats (fo_aout r) (fo_errs r) (fo_errs2 r) (fo_str r) (fo_fr r) (fo_d r), put3 c p e (fo_st r) h, fo_tls r)
  | Frame f buf fr d c p e uv =>
      r <- do_frame f o c buf fr d (h c, h p, h e) uv t ;;
      Ok (FrameShorts (fo_aout r) (fo_errs r) (fo_errs2 r) (fo_str r) (fo_fr r) (fo_d r), put3 c p e (fo_st r) h, fo_tls r)
  | Seed s => Ok (Nothing, h, mbe_setThreadRngSeed s t)
  | Noisef buf => '(b, t) <- mbe_synthesizeComfortNoisef buf t ;; Ok (Floats b, h, t)
  | Noise buf => '(b, t) <- mbe_synthesizeComfortNoise o buf t ;; Ok (Shorts b, h, t)
  end.

(* a schedule: calls in the order in which they happen, each with the number of its thread; T i is the thread-local
   state of thread i *)
Fixpoint run (o : oracle) (s : list (nat * call)) (h : heap) (T : nat -> tls) : res (list (nat * answer) * heap * (nat -> tls)) :=
  match s with
  | [] => Ok ([], h, T)
  | (i, k) :: s =>
      '(x, h, t) <- api o k h (T i) ;;
      '(xs, h, T) <- run o s h (fun j => if Nat.eqb j i then t else T j) ;;
      Ok ((i, x) :: xs, h, T)
  end.
