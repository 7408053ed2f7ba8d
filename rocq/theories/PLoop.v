(* Closed forms of the copying and scrambling loops of MFrame. *)
From Coq Require Import ZArith List Bool Lia.
From Verif Require Import Res MEcc MFrame SpecEcc SpecFrame PBase PEcc PHam.
Import ListNotations.
Local Open Scope Z_scope.

Lemma loop_sim : forall {S T} (h : S -> T) (body : Z -> S -> res S) (body' : Z -> T -> res T),
  (forall i s, body' i (h s) = bind (body i s) (fun s' => Ok (h s'))) ->
  forall n i st s, loop n i st body' (h s) = bind (loop n i st body s) (fun s' => Ok (h s')).
Proof.
  intros S T h body body' H. induction n as [|n IH]; intros i st s; [reflexivity|].
  cbn [loop]. rewrite H. destruct (body i s) as [s'|]; [apply IH|reflexivity].
Qed.

Lemma rd_app : forall {A} (a : list A) x t, rd (a ++ x :: t) (Z.of_nat (length a)) = Ok x.
Proof.
  intros A a x t. unfold rd. destruct (Z.of_nat (length a) <? 0) eqn:E; [apply Z.ltb_lt in E; lia|].
  rewrite Nat2Z.id, nth_error_app2, Nat.sub_diag by lia. reflexivity.
Qed.

Lemma rd_at : forall {A} (a : list A) x t i, i = Z.of_nat (length a) -> rd (a ++ x :: t) i = Ok x.
Proof. intros A a x t i ->. apply rd_app. Qed.

Lemma wr_at : forall {A} (a : list A) x v t i, i = Z.of_nat (length a) -> wr (a ++ x :: t) i v = Ok (a ++ v :: t).
Proof. intros A a x v t i ->. apply wr_app. Qed.

Lemma rd_nth' : forall {A} (d : A) l i k, i = Z.of_nat k -> (k < length l)%nat -> rd l i = Ok (nth k l d).
Proof.
  intros A d l i k -> Hk. destruct (nth_split l d Hk) as (a & b & E & La). rewrite E at 1. apply rd_at. now rewrite La.
Qed.

Lemma snoc_app : forall {A} (a : list A) x t, a ++ x :: t = (a ++ [x]) ++ t.
Proof. intros. now rewrite <- app_assoc. Qed.

(* writing consecutive cells upwards *)
Lemma fill_up : forall {A B} (w : B -> A) (g : Z -> res B) xs pre mid tail i,
  i = Z.of_nat (length pre) -> length mid = length xs ->
  (forall k, (k < length xs)%nat -> exists x, g (i + Z.of_nat k) = Ok x /\ nth_error xs k = Some x) ->
  loop (length xs) i 1 (fun j a => c <- g j ;; wr a j (w c)) (pre ++ mid ++ tail) = Ok (pre ++ map w xs ++ tail).
Proof.
  intros A B w g. induction xs as [|x xs IH]; intros pre mid tail i Hi Hm Hg.
  - destruct mid; [reflexivity|discriminate].
  - destruct mid as [|m mid]; [discriminate|]. cbn [length loop].
    destruct (Hg 0%nat ltac:(cbn; lia)) as (x' & Hx & E). cbn in E. injection E as <-.
    replace (i + Z.of_nat 0) with i in Hx by lia. rewrite Hx. cbn [bind app]. rewrite wr_at by exact Hi. cbn [bind].
    rewrite snoc_app.
    rewrite (IH (pre ++ [w x]) mid tail); [now rewrite <- app_assoc| | |].
    + rewrite app_length. cbn [length]. lia.
    + now injection Hm.
    + intros k Hk. destruct (Hg (S k) ltac:(cbn; lia)) as (y & Hy & Ey). exists y.
      split; [|exact Ey]. replace (i + 1 + Z.of_nat k) with (i + Z.of_nat (S k)) by lia. exact Hy.
Qed.

Lemma slice_length : forall {A} off n (l : list A), (off + n <= length l)%nat -> length (slice off n l) = n.
Proof. intros A off n l H. unfold slice. rewrite firstn_length, skipn_length. lia. Qed.

Lemma nth_error_slice : forall {A} off n (l : list A) k, (k < n)%nat ->
  nth_error (slice off n l) k = nth_error l (off + k).
Proof.
  intros A off n l k Hk. unfold slice. revert n k Hk. revert l. induction off as [|off IH]; intros l n k Hk.
  - cbn [skipn plus]. revert l k Hk. induction n as [|n IHn]; intros l k Hk; [lia|].
    destruct l as [|x l]; [destruct k; reflexivity|]. destruct k as [|k]; [reflexivity|]. cbn. apply IHn. lia.
  - destruct l as [|x l]; [destruct n, k; reflexivity|]. cbn [skipn plus nth_error]. now apply IH.
Qed.

Lemma rd_nth_error : forall {A} (l : list A) k x, nth_error l k = Some x -> rd l (Z.of_nat k) = Ok x.
Proof.
  intros A l k x H. unfold rd. destruct (Z.of_nat k <? 0) eqn:E; [apply Z.ltb_lt in E; lia|].
  now rewrite Nat2Z.id, H.
Qed.

Lemma slice_nth_ex : forall {A} off n (l : list A) k, (off + n <= length l)%nat -> (k < n)%nat ->
  exists x, rd l (Z.of_nat (off + k)) = Ok x /\ nth_error (slice off n l) k = Some x.
Proof.
  intros A off n l k H Hk. rewrite nth_error_slice by exact Hk.
  destruct (nth_error l (off + k)) as [x|] eqn:E.
  - exists x. split; [now apply rd_nth_error|reflexivity].
  - apply nth_error_None in E. lia.
Qed.

Lemma copy_in_spec : forall fr rw r off n, rd fr rw = Ok r -> (off + n <= length r)%nat ->
  copy_in fr rw (Z.of_nat off) (Z.of_nat n) = Ok (slice off n r).
Proof.
  intros fr rw r off n Hr Hn. unfold copy_in, for_up.
  replace (Z.to_nat (Z.of_nat n - 0)) with (length (slice off n r)) by (rewrite slice_length by exact Hn; lia).
  pose proof (fill_up Some (fun j => rd2 fr rw (j + Z.of_nat off)) (slice off n r) [] (fresh (Z.of_nat n)) [] 0 eq_refl) as H.
  cbn [app] in H. rewrite !app_nil_r in H. rewrite H.
  - cbn [bind]. apply all_init_some.
  - unfold fresh. rewrite repeat_length, slice_length by exact Hn. lia.
  - intros k Hk. rewrite slice_length in Hk by exact Hn.
    destruct (slice_nth_ex off n r k Hn Hk) as (x & Hx & E). exists x. split; [|exact E].
    unfold rd2. rewrite Hr. cbn [bind]. rewrite <- Hx. f_equal. lia.
Qed.

Lemma wr2_at : forall {A} (a : list (list A)) r b i j v, i = Z.of_nat (length a) ->
  wr2 (a ++ r :: b) i j v = bind (wr r j v) (fun r' => Ok (a ++ r' :: b)).
Proof.
  intros A a r b i j v Hi. unfold wr2. rewrite rd_at by exact Hi. cbn [bind].
  destruct (wr r j v) as [r'|]; [|reflexivity]. cbn [bind]. now apply wr_at.
Qed.

Lemma rd2_at : forall {A} (a : list (list A)) r b i j, i = Z.of_nat (length a) ->
  rd2 (a ++ r :: b) i j = rd r j.
Proof. intros A a r b i j Hi. unfold rd2. now rewrite rd_at by exact Hi. Qed.

Definition splice {A} (off : nat) (new r : list A) : list A := firstn off r ++ new ++ skipn (off + length new) r.

Lemma skipn_skipn' : forall {A} n m (l : list A), skipn n (skipn m l) = skipn (m + n) l.
Proof.
  intros A n. induction m as [|m IH]; intros l; [reflexivity|]. destruct l as [|x l]; [now rewrite !skipn_nil|].
  cbn [skipn plus]. apply IH.
Qed.

Lemma split3 : forall {A} off n (r : list A), r = firstn off r ++ slice off n r ++ skipn (off + n) r.
Proof.
  intros A off n r. unfold slice. rewrite <- (firstn_skipn off r) at 1. f_equal.
  rewrite <- (firstn_skipn n (skipn off r)) at 1. f_equal. apply skipn_skipn'.
Qed.

Lemma copy_out_spec : forall a r b rw off n out, rw = Z.of_nat (length a) ->
  (off + n <= length r)%nat -> (n <= length out)%nat ->
  copy_out (a ++ r :: b) rw (Z.of_nat off) (Z.of_nat n) out = Ok (a ++ splice off (firstn n out) r :: b).
Proof.
  intros a r b rw off n out Hrw Hn Ho. unfold copy_out, for_up.
  assert (Lo : length (firstn n out) = n) by (rewrite firstn_length; lia).
  rewrite (loop_sim (fun r => a ++ r :: b) (fun j r => c <- rd out j ;; wr r (j + Z.of_nat off) c)).
  2:{ intros i s. destruct (rd out i) as [c|]; [|reflexivity]. cbn [bind]. now apply wr2_at. }
  enough (E : forall m x, loop m x 1 (fun j r => c <- rd out j ;; wr r (j + Z.of_nat off) c) r
            = loop m (x + Z.of_nat off) 1 (fun j r => c <- rd out (j - Z.of_nat off) ;; wr r j c) r).
  - rewrite E. replace (Z.to_nat (Z.of_nat n - 0)) with (length (firstn n out)) by lia.
    rewrite (split3 off n r) at 1.
    rewrite (fill_up (fun c => c) (fun j => rd out (j - Z.of_nat off)) (firstn n out) (firstn off r) (slice off n r)
       (skipn (off + n) r)).
    + cbn [bind]. unfold splice. now rewrite map_id, Lo.
    + rewrite firstn_length. lia.
    + rewrite slice_length by exact Hn. lia.
    + intros k Hk. rewrite Lo in Hk. destruct (slice_nth_ex 0 n out k Ho Hk) as (x & Hx & Ex). exists x.
      split; [|exact Ex]. rewrite <- Hx. f_equal. lia.
  - intros m. generalize r. induction m as [|m IH]; intros r' x; [reflexivity|]. cbn [loop].
    replace (x + Z.of_nat off - Z.of_nat off) with x by lia.
    destruct (rd out x) as [c|]; [|reflexivity]. cbn [bind].
    destruct (wr r' (x + Z.of_nat off) c) as [r''|]; [|reflexivity]. cbn [bind]. rewrite IH. f_equal. lia.
Qed.

(* reading downwards, writing upwards *)
Lemma emit_loop : forall (src : list Z) n lo pre mid tail i p, i = Z.of_nat (lo + n) - 1 -> p = Z.of_nat (length pre) ->
  (lo + n <= length src)%nat -> length mid = n ->
  loop n i (-1) (fun j '(d, p) => c <- rd src j ;; d' <- wr d p (Some c) ;; Ok (d', p + 1)) (pre ++ mid ++ tail, p)
  = Ok (pre ++ map Some (rev (slice lo n src)) ++ tail, p + Z.of_nat n).
Proof.
  intros src. induction n as [|n IH]; intros lo pre mid tail i p Hi Hp Hs Hm.
  - destruct mid; [|discriminate]. cbn [loop slice firstn rev map app]. unfold slice. cbn [firstn rev map app].
    do 2 f_equal. lia.
  - destruct mid as [|m mid]; [discriminate|]. cbn [loop].
    destruct (slice_nth_ex lo (S n) src n Hs ltac:(lia)) as (x & Hx & Ex).
    replace i with (Z.of_nat (lo + n)) by lia. rewrite Hx. cbn [bind app]. rewrite wr_at by exact Hp. cbn [bind].
    rewrite snoc_app. rewrite (IH lo (pre ++ [Some x]) mid tail).
    + f_equal. f_equal; [|lia]. rewrite <- app_assoc. f_equal. cbn [app]. rewrite nth_error_slice in Ex by lia.
      assert (E : slice lo (S n) src = slice lo n src ++ [x]).
      { apply nth_error_split in Ex. destruct Ex as (l1 & l2 & -> & L1). unfold slice.
        rewrite !skipn_app. replace (lo - length l1)%nat with 0%nat by lia. cbn [skipn].
        rewrite !firstn_app, skipn_length, L1. replace (S n - (lo + n - lo))%nat with 1%nat by lia.
        replace (n - (lo + n - lo))%nat with 0%nat by lia. rewrite !(firstn_all2 (skipn lo l1)) by (rewrite skipn_length; lia). cbn [firstn]. now rewrite app_nil_r. }
      rewrite E, rev_app_distr. reflexivity.
    + lia.
    + rewrite app_length. cbn [length]. lia.
    + lia.
    + now injection Hm.
Qed.

Lemma emit_down_spec : forall (src : list Z) hi lo n l pre mid tail p,
  lo = Z.of_nat l -> hi = Z.of_nat (l + n) - 1 -> p = Z.of_nat (length pre) ->
  (l + n <= length src)%nat -> length mid = n ->
  emit_down src hi lo (pre ++ mid ++ tail, p) = Ok (pre ++ map Some (rev (slice l n src)) ++ tail, p + Z.of_nat n).
Proof.
  intros src hi lo n l pre mid tail p Hlo Hhi Hp Hs Hm. unfold emit_down, for_down.
  replace (Z.to_nat (hi - lo + 1)) with n by lia. now apply emit_loop.
Qed.

(* ---- scrambler ---- *)

Lemma lcg16_range : forall n x, Forall (fun y => 0 <= y < 65536) (lcg16 n x).
Proof.
  induction n as [|n IH]; intros x; [constructor|]. cbn [lcg16]. constructor; [|apply IH].
  apply Z.mod_pos_bound. lia.
Qed.

Lemma lcg16_length : forall n x, length (lcg16 n x) = n.
Proof. induction n as [|n IH]; intros x; [reflexivity|]. cbn [lcg16 length]. now rewrite IH. Qed.

Lemma keybits_length : forall s n, length (keybits s n) = n.
Proof. intros. unfold keybits. now rewrite map_length, lcg16_length. Qed.

Lemma keybits_bits : forall s n, Forall is_bit (keybits s n).
Proof.
  intros s n. unfold keybits. apply Forall_map. eapply Forall_impl; [|apply lcg16_range].
  intros y Hy. cbv beta in *. assert (H : 0 <= y / 32768 < 2).
  { split; [apply Z.div_pos; lia|apply Z.div_lt_upper_bound; lia]. }
  unfold is_bit. lia.
Qed.

Lemma pr_step : forall x, 0 <= x < 65536 ->
  (t <- to_int (173 * x + 13849) ;; v <- to_int (t - 65536 * Z.quot t 65536) ;; Ok (to_u16 v))
  = Ok ((173 * x + 13849) mod 65536).
Proof.
  intros x Hx. unfold to_int at 1, in_int.
  destruct ((-2147483648 <=? 173 * x + 13849) && (173 * x + 13849 <=? 2147483647)) eqn:E; [|lia].
  cbn [bind]. rewrite Z.quot_div_nonneg by lia.
  pose proof (Z.div_mod (173 * x + 13849) 65536 ltac:(lia)) as HD.
  pose proof (Z.mod_pos_bound (173 * x + 13849) 65536 ltac:(lia)) as HM.
  replace (173 * x + 13849 - 65536 * ((173 * x + 13849) / 65536)) with ((173 * x + 13849) mod 65536) by lia.
  unfold to_int, in_int.
  destruct ((-2147483648 <=? (173 * x + 13849) mod 65536) && ((173 * x + 13849) mod 65536 <=? 2147483647)) eqn:E2; [|lia].
  cbn [bind]. unfold to_u16. now rewrite Z.mod_mod by lia.
Qed.

Lemma pr_loop : forall n i pre x mid tail, 0 <= x < 65536 -> i = Z.of_nat (length pre) + 1 -> length mid = n ->
  loop n i 1 (fun i pr =>
    x <- rdi pr (i - 1) ;;
    t <- to_int (173 * x + 13849) ;;
    v <- to_int (t - 65536 * Z.quot t 65536) ;;
    wr pr i (Some (to_u16 v))) (pre ++ Some x :: mid ++ tail)
  = Ok (pre ++ Some x :: map Some (lcg16 n x) ++ tail).
Proof.
  induction n as [|n IH]; intros i pre x mid tail Hx Hi Hm.
  - destruct mid; [reflexivity|discriminate].
  - destruct mid as [|m mid]; [discriminate|]. cbn [loop]. unfold rdi at 1. rewrite rd_at by lia. cbn [bind init_val].
    pose proof (pr_step x Hx) as HS.
    destruct (to_int (173 * x + 13849)) as [t|]; [|discriminate HS]. cbn [bind] in HS |- *.
    destruct (to_int (t - 65536 * Z.quot t 65536)) as [v|]; [|discriminate HS]. cbn [bind] in HS |- *.
    assert (HS' : to_u16 v = (173 * x + 13849) mod 65536) by congruence. rewrite HS'. clear HS HS'.
    cbn [app]. rewrite snoc_app. rewrite wr_at by (rewrite app_length; cbn [length]; lia). cbn [bind].
    rewrite (IH (i + 1) (pre ++ [Some x]) ((173 * x + 13849) mod 65536) mid tail).
    + cbn [lcg16 map app]. now rewrite <- app_assoc.
    + apply Z.mod_pos_bound. lia.
    + rewrite app_length. cbn [length]. lia.
    + now injection Hm.
Qed.

Lemma pr_fill_spec : forall seed n, 0 <= seed < 4096 -> (n <= 114)%nat ->
  pr_fill seed (Z.of_nat (S n)) = Ok (Some (16 * seed) :: map Some (lcg16 n (16 * seed)) ++ repeat None (114 - n)).
Proof.
  intros seed n Hs Hn. unfold pr_fill, to_int, in_int.
  destruct ((-2147483648 <=? 16 * seed) && (16 * seed <=? 2147483647)) eqn:E; [|lia]. cbn [bind].
  replace (to_u16 (16 * seed)) with (16 * seed) by (unfold to_u16; rewrite Z.mod_small by lia; reflexivity).
  change (wr (fresh 115) 0 (Some (16 * seed))) with (Ok ([] ++ Some (16 * seed) :: repeat (@None Z) 114)).
  cbn [bind]. unfold for_up. replace (Z.to_nat (Z.of_nat (S n) - 1)) with n by lia.
  replace (repeat (@None Z) 114) with (repeat (@None Z) n ++ repeat None (114 - n))
    by (rewrite <- repeat_app; f_equal; lia).
  apply (pr_loop n 1 [] (16 * seed) (repeat None n)); [lia|reflexivity|apply repeat_length].
Qed.

Lemma map_loop : forall (f : Z -> Z) xs i pre tail, i = Z.of_nat (length pre) ->
  loop (length xs) i 1 (fun i pr => x <- rdi pr i ;; wr pr i (Some (f x))) (pre ++ map Some xs ++ tail)
  = Ok (pre ++ map Some (map f xs) ++ tail).
Proof.
  intros f. induction xs as [|x xs IH]; intros i pre tail Hi; [reflexivity|].
  cbn [length loop map app]. unfold rdi at 1. rewrite rd_at by exact Hi. cbn [bind init_val].
  rewrite wr_at by exact Hi. cbn [bind]. rewrite snoc_app, IH.
  - now rewrite <- app_assoc.
  - rewrite app_length. cbn [length]. lia.
Qed.

(* the finished key array: cell 0 is not used, cells 1..n hold the key *)
Lemma pr_key : forall (f : Z -> Z) seed n, 0 <= seed < 4096 -> (n <= 114)%nat ->
  (forall x, 0 <= x < 65536 -> f x = x / 32768) ->
  exists pr, pr_fill seed (Z.of_nat (S n)) = Ok pr
  /\ for_up 1 (Z.of_nat (S n)) (fun i pr => x <- rdi pr i ;; wr pr i (Some (f x))) pr
     = Ok ([Some (16 * seed)] ++ map Some (keybits seed n) ++ repeat None (114 - n)).
Proof.
  intros f seed n Hs Hn Hf. eexists. split; [apply pr_fill_spec; assumption|]. unfold for_up.
  replace (Z.to_nat (Z.of_nat (S n) - 1)) with (length (lcg16 n (16 * seed))) by (rewrite lcg16_length; lia).
  pose proof (map_loop f (lcg16 n (16 * seed)) 1 [Some (16 * seed)] (repeat None (114 - n)) eq_refl) as H.
  cbn [app] in H. rewrite H. clear H. cbn [app].
  do 3 f_equal. unfold keybits. f_equal. apply map_ext_in. intros x Hx. apply Hf.
  pose proof (lcg16_range n (16 * seed)) as H. rewrite Forall_forall in H. now apply H.
Qed.

Lemma to_char_bit : forall c, is_bit c -> to_char c = c.
Proof. intros c [-> | ->]; reflexivity. Qed.

Lemma xor_bits_app : forall a b c d, length a = length c -> xor_bits (a ++ b) (c ++ d) = xor_bits a c ++ xor_bits b d.
Proof.
  induction a as [|x a IH]; intros b c d H; destruct c as [|y c]; try discriminate H; [reflexivity|].
  cbn [app xor_bits]. rewrite IH by now injection H. reflexivity.
Qed.

Lemma xor_bits_length : forall a b, length a = length b -> length (xor_bits a b) = length a.
Proof.
  induction a as [|x a IH]; intros [|y b] H; try discriminate H; [reflexivity|]. cbn [xor_bits length].
  rewrite IH by now injection H. reflexivity.
Qed.

Lemma demod_loop : forall key kpre ktail low tail i k,
  Forall is_bit key -> Forall is_bit low -> length low = length key ->
  i = Z.of_nat (length key) - 1 -> k = Z.of_nat (length kpre) ->
  loop (length key) i (-1) (fun j '(r, k) =>
    c <- rd r j ;; p <- rdi (kpre ++ map Some key ++ ktail) k ;;
    r' <- wr r j (to_char (Z.lxor c p)) ;; Ok (r', k + 1)) (low ++ tail, k)
  = Ok (xor_bits low (rev key) ++ tail, k + Z.of_nat (length key)).
Proof.
  induction key as [|p key IH]; intros kpre ktail low tail i k Hk Hl Hlen Hi Hkk.
  - destruct low; [|discriminate]. cbn [loop length rev xor_bits app]. do 2 f_equal. lia.
  - destruct (exists_last (l := low)) as (low' & c & ->); [intros ->; discriminate|].
    rewrite app_length in Hlen. cbn [length] in Hlen.
    inversion Hk as [|? ? Hp Hk']; subst. apply Forall_app in Hl. destruct Hl as [Hl' Hc]. inversion Hc as [|? ? Hc' _]; subst.
    cbn [length loop map app]. rewrite <- app_assoc. cbn [app].
    rewrite rd_at by (cbn [length]; lia). cbn [bind]. unfold rdi at 1. rewrite rd_app. cbn [bind init_val].
    rewrite wr_at by (cbn [length]; lia). cbn [bind].
    rewrite to_char_bit by (apply lxor_bit; assumption).
    pose proof (IH (kpre ++ [Some p]) ktail low' (Z.lxor c p :: tail) (Z.of_nat (S (length key)) - 1 + -1)
       (Z.of_nat (length kpre) + 1) Hk' Hl' ltac:(lia) ltac:(lia)
       ltac:(rewrite app_length; cbn [length]; lia)) as H.
    rewrite <- app_assoc in H. cbn [app] in H. rewrite H.
    f_equal. f_equal; [|cbn [length]; lia]. cbn [rev]. rewrite xor_bits_app by (rewrite rev_length; lia).
    rewrite <- app_assoc. reflexivity.
Qed.

Lemma demod_row_spec : forall a r b rw hi kpre key ktail k,
  rw = Z.of_nat (length a) -> hi = Z.of_nat (length key) - 1 -> k = Z.of_nat (length kpre) ->
  Forall is_bit key -> (length key <= length r)%nat -> Forall is_bit (firstn (length key) r) ->
  demod_row (kpre ++ map Some key ++ ktail) rw hi (a ++ r :: b, k)
  = Ok (a ++ scramble key r :: b, k + Z.of_nat (length key)).
Proof.
  intros a r b rw hi kpre key ktail k Hrw Hhi Hk Hkb Hlen Hrb. unfold demod_row, for_down.
  replace (Z.to_nat (hi - 0 + 1)) with (length key) by lia.
  etransitivity; [apply (loop_sim (fun s : list Z * Z => (a ++ fst s :: b, snd s))
    (fun j '(r, k) => c <- rd r j ;; p <- rdi (kpre ++ map Some key ++ ktail) k ;;
       r' <- wr r j (to_char (Z.lxor c p)) ;; Ok (r', k + 1)) _) with (s := (r, k))|].
  - intros i [r' k']. cbn [fst snd]. rewrite rd2_at by exact Hrw.
    destruct (rd r' i) as [c|]; [|reflexivity]. cbn [bind].
    destruct (rdi (kpre ++ map Some key ++ ktail) k') as [p|]; [|reflexivity]. cbn [bind].
    rewrite wr2_at by exact Hrw. destruct (wr r' i (to_char (Z.lxor c p))) as [r''|]; reflexivity.
  - rewrite <- (firstn_skipn (length key) r) at 1.
    rewrite (demod_loop key kpre ktail (firstn (length key) r) (skipn (length key) r) hi k Hkb Hrb
       ltac:(rewrite firstn_length; lia) Hhi Hk). reflexivity.
Qed.

(* ---- properties of scramble ---- *)

Lemma xor_bits_involutive : forall a b, length a = length b -> xor_bits (xor_bits a b) b = a.
Proof.
  induction a as [|x a IH]; intros [|y b] H; try discriminate H; [reflexivity|]. cbn [xor_bits].
  rewrite IH by now injection H. f_equal. now rewrite Z.lxor_assoc, Z.lxor_nilpotent, Z.lxor_0_r.
Qed.

Lemma scramble_low : forall key r, (length key <= length r)%nat ->
  firstn (length key) (scramble key r) = xor_bits (firstn (length key) r) (rev key)
  /\ skipn (length key) (scramble key r) = skipn (length key) r.
Proof.
  intros key r H. unfold scramble.
  assert (L : length (xor_bits (firstn (length key) r) (rev key)) = length key).
  { rewrite xor_bits_length; rewrite firstn_length; [|rewrite rev_length]; lia. }
  split.
  - rewrite firstn_app, L, Nat.sub_diag. cbn [firstn]. rewrite app_nil_r. apply firstn_all2. lia.
  - rewrite skipn_app, L, Nat.sub_diag. cbn [skipn]. rewrite skipn_all2 by lia. reflexivity.
Qed.

Lemma scramble_involutive : forall key r, (length key <= length r)%nat -> scramble key (scramble key r) = r.
Proof.
  intros key r H. destruct (scramble_low key r H) as [H1 H2]. unfold scramble at 1. rewrite H1, H2.
  rewrite xor_bits_involutive by (rewrite firstn_length, rev_length; lia). apply firstn_skipn.
Qed.

Lemma scramble_length : forall key r, (length key <= length r)%nat -> length (scramble key r) = length r.
Proof.
  intros key r H. unfold scramble. rewrite app_length, skipn_length, xor_bits_length; rewrite firstn_length; [|rewrite rev_length]; lia.
Qed.

Lemma xor_bits_bits : forall a b, Forall is_bit a -> Forall is_bit b -> Forall is_bit (xor_bits a b).
Proof.
  induction a as [|x a IH]; intros [|y b] Ha Hb; try constructor; inversion Ha; inversion Hb; subst.
  - now apply lxor_bit.
  - now apply IH.
Qed.

Lemma scramble_row : forall key w r, row w (length key) r -> (length key <= w)%nat -> Forall is_bit key ->
  row w (length key) (scramble key r).
Proof.
  intros key w r [L B] H K. assert (Hl : (length key <= length r)%nat) by lia. split.
  - now rewrite scramble_length.
  - destruct (scramble_low key r Hl) as [-> _]. apply xor_bits_bits; [exact B|now apply Forall_rev].
Qed.

Lemma hdist_xor_bits : forall a b k, Forall is_bit a -> Forall is_bit b -> Forall is_bit k ->
  length a = length k -> length b = length k -> hdist (xor_bits a k) (xor_bits b k) = hdist a b.
Proof.
  induction a as [|x a IH]; intros [|y b] [|z k] Ha Hb Hk La Lb; try discriminate La; try discriminate Lb; [reflexivity|].
  inversion Ha as [|? ? Hx Ha']; inversion Hb as [|? ? Hy Hb']; inversion Hk as [|? ? Hz Hk']; subst. cbn [xor_bits hdist].
  cbn [length] in La, Lb. rewrite IH by (assumption || lia). f_equal.
  destruct Hx as [-> | ->], Hy as [-> | ->], Hz as [-> | ->]; reflexivity.
Qed.
