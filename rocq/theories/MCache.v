(* Model of the thread-local cosine caches: /repo/src/imbe/imbe7200x4400.c:29-44 and 91-115,
   /repo/src/ambe/ambe3600x2450.c:34-74, /repo/src/ambe/ambe3600x2400.c:34-74, and of the three parameter decoders with
   the cache in place.  MImbe and MAmbe evaluate the same cosines directly; the decoders here differ from those only
   where they read the cache. *)
From Coq Require Import ZArith List Bool.
From Verif Require Import Res F32 TabImbe TabAmbe2450 TabAmbe2400 MFrame MParms MSynth MImbe MAmbe.
Import ListNotations.
Local Open Scope Z_scope.

(* three-dimensional arrays *)
Definition rd3 {A} (l : list (list (list A))) (i j k : Z) : res A := r <- rd l i ;; rd2 r j k.
Definition wr3 {A} (l : list (list (list A))) (i j k : Z) (v : A) : res (list (list (list A))) :=
  r <- rd l i ;; r' <- wr2 r j k v ;; wr l i r'.

(* struct imbe_dct_cache, struct ambe2450_dct_cache, struct ambe_dct_cache *)
Record dct_cache := mkcache { dc_inited : Z; dc_ri : list (list f32); dc_idct : list (list (list f32)) }.
(* static ... = {0}: rows r x r and d x d x d *)
Definition zero_cache (r d : nat) : dct_cache := mkcache 0 (repeat (repeat fzero r) r) (repeat (repeat (repeat fzero d) d) d).
Definition imbe_cache0 : dct_cache := zero_cache 7 11.
Definition ambe_cache0 : dct_cache := zero_cache 9 18.

(* imbe7200x4400.c:91-115, ambe3600x2450.c:50-74, ambe3600x2400.c:50-74: fill on first use.  R is 6 or 8, J is 10 or 17,
   ric is the cosine stored in ri_cos. *)
Definition get_dct_cache (R J : Z) (ric : Z -> Z -> f32) (idc : Z -> Z -> Z -> f32) (c : dct_cache) : res dct_cache :=
  if negb (dc_inited c =? 0) then Ok c
  else
    ri <- for_up 1 (R + 1) (fun m ri => for_up 1 (R + 1) (fun i ri => wr2 ri m i (ric m i)) ri) (dc_ri c) ;;
    id <- for_up 1 (J + 1) (fun ji id => for_up 1 (ji + 1) (fun j id => for_up 1 (ji + 1) (fun k id =>
            wr3 id ji j k (idc ji j k)) id) id) (dc_idct c) ;;
    Ok (mkcache 1 ri id).
Definition imbe_get_dct_cache (o : oracle) : dct_cache -> res dct_cache := get_dct_cache 6 10 (ri_cos o) (idct_cos o).
Definition ambe_get_dct_cache (o : oracle) : dct_cache -> res dct_cache := get_dct_cache 8 17 (ambe_ri_cos o) (idct_cos o).

(* imbe7200x4400.c:410-427 (n = 7), ambe3600x2450.c:388-402 and ambe3600x2400.c:369-383 (n = 9) *)
Definition cached_ri (n : Z) (c : dct_cache) (Gm : list (option f32)) : res (list (option f32)) :=
  for_up 1 n (fun i Ri =>
    sum <- for_up 1 n (fun m sum =>
      g <- rdi Gm m ;;
      let am := if m =? 1 then 1 else 2 in
      x <- rd2 (dc_ri c) m i ;;
      Ok (fadd sum (fmul (fmul (f_of_Z am) g) x))) fzero ;;
    wr Ri i (Some sum)) (fresh n).

(* imbe7200x4400.c:456-469 *)
Definition imbe_tl_cached (c : dct_cache) (L9 : Z) (Cik : list (list (option f32))) : res (list f32) :=
  '(Tl, _) <- for_up 1 7 (fun i '(Tl, l) =>
    ji <- rd2 ImbeJi L9 (i - 1) ;;
    for_up 1 (ji + 1) (fun j '(Tl, l) =>
      sum <- for_up 1 (ji + 1) (fun k sum =>
        y <- rdi2 Cik i k ;;
        let ak := if k =? 1 then 1 else 2 in
        x <- rd3 (dc_idct c) ji j k ;;
        Ok (fadd sum (fmul (fmul (f_of_Z ak) y) x))) fzero ;;
      Tl <- wr Tl l sum ;; Ok (Tl, l + 1)) (Tl, l)) (repeat fzero 57, 1) ;;
  Ok Tl.

(* ambe3600x2450.c:507-528, ambe3600x2400.c:488-509 *)
Definition ambe_tl_cached (c : dct_cache) (Ji : Z -> Z) (Cik : list (list (option f32))) : res (list f32) :=
  '(Tl, _) <- for_up 1 5 (fun i '(Tl, l) =>
    let ji := Ji i in
    for_up 1 (ji + 1) (fun j '(Tl, l) =>
      sum <- for_up 1 (ji + 1) (fun k sum =>
        y <- rdi2 Cik i k ;;
        let ak := if k =? 1 then 1 else 2 in
        x <- rd3 (dc_idct c) ji j k ;;
        Ok (fadd sum (fmul (fmul (f_of_Z ak) y) x))) fzero ;;
      Tl <- wr Tl l sum ;; Ok (Tl, l + 1)) (Tl, l)) (repeat fzero 57, 1) ;;
  Ok Tl.

(* imbe7200x4400.c:275-529 with the cache *)
Definition imbe_decode_cached (o : oracle) (d : list Z) (cur prev : parms) (c : dct_cache) : res (Z * parms * parms * dct_cache) :=
  let cur := set_repeat (p_repeat prev) cur in
  b0 <- read_b0 d [0; 1; 2; 3; 4; 5; 85; 86] ;;
  if 207 <? b0 then Ok (1, cur, prev, c)
  else
    let cur := set_w0 (imbe_w0_of_b0 b0) cur in
    L <- imbe_L_of_w0 (p_w0 cur) ;;
    if (56 <? L) || (L <? 9) then Ok (1, cur, prev, c)
    else
      let cur := set_L L cur in
      let L9 := L - 9 in
      K <- imbe_K_of_L L ;;
      let cur := set_K K cur in
      bb <- imbe_bb d L9 ;;
      Vl <- imbe_vl bb L K (p_Vl cur) ;;
      let cur := set_Vl Vl cur in
      Gm <- imbe_gm o bb L9 ;;
      c <- imbe_get_dct_cache o c ;;
      Ri <- cached_ri 7 c Gm ;;
      Cik <- imbe_cik o bb L9 Ri ;;
      Tl <- imbe_tl_cached c L9 Cik ;;
      prev <- imbe_extend_prev L prev ;;
      cur <- imbe_predict o L prev Tl cur ;;
      Ok (0, cur, prev, c).

(* ambe3600x2450.c:334-596, ambe3600x2400.c:314-577 with the cache *)
Definition ambe_amplitudes_cached (o : oracle) (T : ambe_tables) (unvc : f32) (L b2 b3 b4 b5 b6 b7 b8 : Z) (cur prev : parms)
    (c : dct_cache) : res (parms * parms * dct_cache) :=
  dg <- rd (at_Dg T) b2 ;;
  let cur := set_gamma (fadd dg (fmul fhalf (p_gamma prev))) cur in
  Gm <- ambe_gm T b3 b4 ;;
  c <- ambe_get_dct_cache o c ;;
  Ri <- cached_ri 9 c Gm ;;
  Cik <- for_up 1 5 (ambe_cik12 Ri) (fresh2 5 18) ;;
  j1 <- rd2 (at_Lmprbl T) L 0 ;; j2 <- rd2 (at_Lmprbl T) L 1 ;;
  j3 <- rd2 (at_Lmprbl T) L 2 ;; j4 <- rd2 (at_Lmprbl T) L 3 ;;
  Cik <- ambe_hoc (at_HOC5 T) b5 1 j1 Cik ;;
  Cik <- ambe_hoc (at_HOC6 T) b6 2 j2 Cik ;;
  Cik <- ambe_hoc (at_HOC7 T) b7 3 j3 Cik ;;
  Cik <- ambe_hoc (at_HOC8 T) b8 4 j4 Cik ;;
  Tl <- ambe_tl_cached c (fun i => if i =? 1 then j1 else if i =? 2 then j2 else if i =? 3 then j3 else j4) Cik ;;
  prev <- ambe_extend_prev L prev ;;
  cur <- ambe_predict o unvc L prev Tl cur ;;
  Ok (cur, prev, c).

(* ambe3600x2450.c:176-597 with the cache *)
Definition ambe2450_decode_cached (o : oracle) (d : list Z) (cur prev : parms) (total_errors : Z) (c : dct_cache)
  : res (Z * parms * parms * dct_cache) :=
  tv <- tone_verified d ;;
  let cur := set_repeat (p_repeat prev) cur in
  b0 <- bits_msb d [0; 1; 2; 3; 37; 38; 39] ;;
  if tv && (total_errors <? 6) then Ok (7, cur, prev, c)
  else if (120 <=? b0) && (b0 <=? 123) then Ok (2, cur, prev, c)
  else if (b0 =? 126) || (b0 =? 127) then Ok (2, cur, prev, c)
  else
    '(cur, unvc) <- ambe2450_pitch d b0 cur ;;
    b2 <- bits_msb d [8; 9; 10; 11; 36] ;;
    b3 <- bits_msb d [12; 13; 14; 15; 16; 17; 18; 19; 40] ;;
    b4 <- bits_msb d [20; 21; 22; 23; 41; 42; 43] ;;
    b5 <- bits_msb d [24; 25; 26; 27; 44] ;;
    b6 <- bits_msb d [28; 29; 30; 45] ;;
    b7 <- bits_msb d [31; 32; 33; 46] ;;
    b8 <- bits_msb d [34; 47; 48] ;;
    '(cur, prev, c) <- ambe_amplitudes_cached o tables2450 unvc (p_L cur) b2 b3 b4 b5 b6 b7 b8 cur prev c ;;
    Ok (0, cur, prev, c).

(* ambe3600x2400.c:157-578 with the cache *)
Definition ambe2400_decode_cached (o : oracle) (d : list Z) (cur prev : parms) (c : dct_cache)
  : res (Z * parms * parms * dct_cache) :=
  let cur := set_repeat (p_repeat prev) cur in
  b0 <- bits_msb d [0; 1; 2; 3; 4; 5; 48] ;;
  if Z.land b0 126 =? 126 then
    b1 <- ambe2400_tone_index d ;;
    if (5 <=? b1) && (b1 <=? 122) then Ok (b1, cur, prev, c)
    else if (128 <=? b1) && (b1 <=? 163) then Ok (3, cur, prev, c)
    else
      Vl <- clear_vl 14 (p_Vl cur) ;;
      Ok (3, set_Vl Vl (set_L 14 (set_w0 silence_w0_2400 cur)), prev, c)
  else
    '(cur, unvc) <- ambe2400_pitch o d b0 cur ;;
    b2 <- bits_msb d [6; 7; 8; 9; 42; 43] ;;
    b3 <- bits_msb d [10; 11; 12; 13; 14; 15; 16; 44; 45] ;;
    b4 <- bits_msb d [17; 18; 19; 20; 21; 46; 47] ;;
    b5 <- bits_msb d [22; 23; 25; 26] ;;
    b6 <- bits_msb d [27; 28; 29; 30] ;;
    b7 <- bits_msb d [31; 32; 33; 34] ;;
    b8h <- bits_msb d [35; 36; 37] ;;
    '(cur, prev, c) <- ambe_amplitudes_cached o tables2400 unvc (p_L cur) b2 b3 b4 b5 b6 b7 (2 * b8h) cur prev c ;;
    Ok (0, cur, prev, c).
