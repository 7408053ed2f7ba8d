(* Model of what the public functions do with NULL arguments (/repo/include/mbelib-neo/mbelib.h:150-600): a pointer argument
   is None for NULL and Some of the object it points to.  The functions of the other files are the calls without NULL.
   A dereference of NULL is undefined behaviour, here UB OOB.  Left out: the frame decoders and mbe_process*, mbe_decode*,
   mbe_ecc*, mbe_demodulate* and mbe_convert*, none of which tests its arguments. *)
From Coq Require Import ZArith List Bool.
From Verif Require Import Res F32 MParms MAdaptive MSynth.
Import ListNotations.
Local Open Scope Z_scope.

(* the object behind a pointer *)
Definition deref {A : Type} (p : option A) : res A := match p with Some x => Ok x | None => UB OOB end.

(* mbe_adaptive.c:82-92, mbe_requiresAdaptiveSmoothing *)
Definition n_requiresAdaptiveSmoothing (m : option parms) : bool :=
  match m with None => false | Some m => mbe_requiresAdaptiveSmoothing m end.
(* mbe_adaptive.c:99-105, mbe_requiresMuting *)
Definition n_requiresMuting (m : option parms) : bool := match m with None => false | Some m => mbe_requiresMuting m end.
(* mbe_adaptive.c:113-119, mbe_isMaxFrameRepeat *)
Definition n_isMaxFrameRepeat (m : option parms) : bool := match m with None => false | Some m => mbe_isMaxFrameRepeat m end.

(* mbe_adaptive.c:128-145, mbe_synthesizeComfortNoisef: the test comes before the first random number *)
Definition n_comfortNoisef (aout : option (list f32)) (t : tls) : res (option (list f32) * tls) :=
  match aout with
  | None => Ok (None, t)
  | Some b => '(b, t) <- mbe_synthesizeComfortNoisef b t ;; Ok (Some b, t)
  end.
(* mbe_adaptive.c:150-162, mbe_synthesizeComfortNoise *)
Definition n_comfortNoise (o : oracle) (aout : option (list Z)) (t : tls) : res (option (list Z) * tls) :=
  match aout with
  | None => Ok (None, t)
  | Some b => '(b, t) <- mbe_synthesizeComfortNoise o b t ;; Ok (Some b, t)
  end.
(* mbe_adaptive.c:177-265, mbe_applyAdaptiveSmoothing; a is the address of *cur *)
Definition n_applyAdaptiveSmoothing (o : oracle) (a : Z) (cur prev : option parms) (t : tls) : res (option parms * tls) :=
  match cur, prev with
  | Some c, Some p => '(c, t) <- mbe_applyAdaptiveSmoothing o a c p t ;; Ok (Some c, t)
  | _, _ => Ok (cur, t)
  end.

(* mbelib.c:173-180, mbe_printVersion *)
Definition n_printVersion (version : list Z) (str : option (list Z)) : res (option (list Z)) :=
  match str with None => Ok None | Some s => s <- mbe_printVersion version s ;; Ok (Some s) end.
(* mbelib.c:201-204, mbe_moveMbeParms, and 212-215, mbe_useLastMbeParms: the source and the destination afterwards *)
Definition n_moveMbeParms (in_ out : option parms) : res (option parms * option parms) :=
  i <- deref in_ ;; _ <- deref out ;; Ok (Some i, Some (mbe_moveMbeParms i)).
(* mbelib.c:223-269, mbe_initMbeParms *)
Definition n_initMbeParms (cur prev enh : option parms) : res (option parms * option parms * option parms) :=
  p <- deref prev ;; c <- deref cur ;; e <- deref enh ;;
  '(c, p, e) <- mbe_initMbeParms c p e ;; Ok (Some c, Some p, Some e).
(* mbelib.c:272-, mbe_spectralAmpEnhance *)
Definition n_spectralAmpEnhance (o : oracle) (a : Z) (cur : option parms) (t : tls) : res (option parms * tls) :=
  c <- deref cur ;; '(c, t) <- mbe_spectralAmpEnhance o a c t ;; Ok (Some c, t).

(* mbelib.c:860-866, mbe_synthesizeSilencef *)
Definition n_silencef (aout : option (list f32)) : res (option (list f32)) :=
  match aout with None => Ok None | Some b => b <- mbe_synthesizeSilencef b ;; Ok (Some b) end.
(* mbelib.c:872-878, mbe_synthesizeSilence *)
Definition n_silence (aout : option (list Z)) : res (option (list Z)) :=
  match aout with None => Ok None | Some b => b <- mbe_synthesizeSilence b ;; Ok (Some b) end.
(* mbelib.c:716-745, mbe_renderTonef (static) *)
Definition n_renderTonef (o : oracle) (aout : option (list f32)) (cur : option parms) (freq1 freq2 : f32) (ad : Z)
  : res (option (list f32) * option parms) :=
  match aout, cur with
  | Some b, Some c => '(b, c) <- mbe_renderTonef o b c freq1 freq2 ad ;; Ok (Some b, Some c)
  | _, _ => aout <- n_silencef aout ;; Ok (aout, cur)
  end.
(* mbelib.c:753-807, mbe_synthesizeTonef: the frame is read before anything else, unless the build has no tones *)
Definition n_synthesizeTonef (o : oracle) (aout : option (list f32)) (d : option (list Z)) (cur : option parms)
  : res (option (list f32) * option parms) :=
  if negb (o_tones o) then aout <- n_silencef aout ;; Ok (aout, cur) else
  d <- deref d ;;
  u0 <- load_field d 0 12 ;;
  u1 <- load_field d 12 24 ;;
  u2 <- load_field d 24 35 ;;
  u3 <- load_field d 35 49 ;;
  let AD := Z.shiftl (Z.land u0 63) 1 + Z.land (Z.shiftr u3 4) 1 in
  let ID1 := Z.shiftr (Z.land u1 4095) 4 in
  match mbe_lookupToneFreqs ID1 with
  | None => aout <- n_silencef aout ;; Ok (aout, cur)
  | Some (f1, f2) => n_renderTonef o aout cur f1 f2 AD
  end.
(* mbelib.c:816-854, mbe_synthesizeTonefdstar: the frame is not looked at (828) *)
Definition n_synthesizeTonefdstar (o : oracle) (aout : option (list f32)) (d : option (list Z)) (cur : option parms) (id : Z)
  : res (option (list f32) * option parms) :=
  if negb (o_tones o) then aout <- n_silencef aout ;; Ok (aout, cur) else
  let f := dstar_freq id in
  if fle f fzero then aout <- n_silencef aout ;; Ok (aout, cur)
  else n_renderTonef o aout cur f f 103.

(* mbelib.c:894-1062, mbe_synthesizeSpeechf.  Smoothing and comfort noise test for NULL; line 915 reads *cur, line 936 *prev,
   line 939 writes the buffer.  Simplification: with a NULL and no muting the undefined behaviour is reported at once; the lines
   before 936 change no object of the caller but *cur *)
Definition n_synthesizeSpeechf (o : oracle) (aout : option (list f32)) (a : Z) (cur prev : option parms) (uvquality : Z) (t : tls)
  : res (option (list f32) * option parms * option parms * tls) :=
  match aout, cur, prev with
  | Some b, Some c, Some p =>
    '(b, c, p, t) <- mbe_synthesizeSpeechf o b a c p uvquality t ;; Ok (Some b, Some c, Some p, t)
  | _, _, _ =>
    '(cur, t) <- n_applyAdaptiveSmoothing o a cur prev t ;;
    c <- deref cur ;;
    if speech_muted c then '(aout, t) <- n_comfortNoisef aout t ;; Ok (aout, cur, prev, t) else UB OOB
  end.
(* mbelib.c:1071-1077, mbe_synthesizeSpeech: the conversion does not test its buffers *)
Definition n_synthesizeSpeech (o : oracle) (aout : option (list Z)) (a : Z) (cur prev : option parms) (uvquality : Z) (t : tls)
  : res (option (list Z) * option parms * option parms * tls) :=
  '(fb, cur, prev, t) <- n_synthesizeSpeechf o (Some (repeat fzero 160)) a cur prev uvquality t ;;
  fb <- deref fb ;; b <- deref aout ;; b <- mbe_floattoshort o fb b ;; Ok (Some b, cur, prev, t).
(* mbelib.c:1169-1252, mbe_floattoshort *)
Definition n_floattoshort (o : oracle) (fb : option (list f32)) (aout : option (list Z)) : res (option (list Z)) :=
  f <- deref fb ;; b <- deref aout ;; b <- mbe_floattoshort o f b ;; Ok (Some b).
