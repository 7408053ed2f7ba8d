(* Loops that update one array cell per iteration. *)
From Coq Require Import ZArith List Bool Lia.
From Verif Require Import Res PRun.
Import ListNotations.
Local Open Scope Z_scope.

Lemma rd_set_same : forall {A} (l : list A) i v, 0 <= i < Z.of_nat (length l) -> rd (set_nth (Z.to_nat i) v l) i = Ok v.
Proof. intros A l i v H. apply rd_some; [lia|]. apply nth_set_nth_same. lia. Qed.
Lemma rd_set_other : forall {A} (l : list A) i j v, 0 <= i -> 0 <= j -> i <> j -> rd (set_nth (Z.to_nat i) v l) j = rd l j.
Proof.
  intros A l i j v Hi Hj N. unfold rd. destruct (j <? 0); [reflexivity|]. rewrite nth_set_nth_other by lia. reflexivity.
Qed.

(* every iteration replaces cell k by a function of k and the old cell *)
Lemma update_loop : forall {A} (g : Z -> A -> A) (body : Z -> list A -> res (list A)) lo hi l,
  0 <= lo -> lo <= hi -> hi <= Z.of_nat (length l) ->
  (forall k s x, lo <= k < hi -> length s = length l -> rd s k = Ok x -> rd l k = Ok x -> body k s = wr s k (g k x)) ->
  exists l', for_up lo hi body l = Ok l' /\ length l' = length l /\
    (forall i x, lo <= i < hi -> rd l i = Ok x -> rd l' i = Ok (g i x)) /\
    (forall i, 0 <= i -> ~ lo <= i < hi -> rd l' i = rd l i).
Proof.
  intros A g body lo hi l H0 H1 H2 HB.
  destruct (for_up_ok (fun k s => length s = length l /\ (forall i x, lo <= i < k -> rd l i = Ok x -> rd s i = Ok (g i x)) /\
      (forall i, 0 <= i -> ~ lo <= i < k -> rd s i = rd l i)) body lo hi l) as (l' & E & L & P & Q).
  - exact H1.
  - intros k s Hk (L & P & Q). destruct (rd_ok l k) as [x Hx]; [lia|]. assert (Hs : rd s k = Ok x) by (rewrite Q by lia; exact Hx).
    rewrite (HB k s x Hk L Hs Hx). rewrite wr_ok by lia. eexists. split; [reflexivity|]. split; [now rewrite set_nth_length|]. split.
    + intros i y Hi Hy. destruct (Z.eq_dec k i) as [<-|N].
      * rewrite rd_set_same by lia. congruence.
      * rewrite rd_set_other by lia. apply P; [lia|exact Hy].
    + intros i Hi N. rewrite rd_set_other by lia. apply Q; lia.
  - split; [reflexivity|]. split; [intros; lia|reflexivity].
  - exists l'. auto.
Qed.

(* a table of 160 samples given by position *)
Lemma rd_map_seq : forall {A} (f : nat -> A) n i, 0 <= i < Z.of_nat n -> rd (map f (seq 0 n)) i = Ok (f (Z.to_nat i)).
Proof.
  intros A f n i H. apply rd_some; [lia|]. rewrite nth_error_map.
  rewrite (nth_error_nth' (seq 0 n) 0%nat) by (rewrite seq_length; lia). rewrite seq_nth by lia. reflexivity.
Qed.
Lemma rd_nth : forall {A} (l : list A) i d, 0 <= i < Z.of_nat (length l) -> rd l i = Ok (nth (Z.to_nat i) l d).
Proof. intros A l i d H. apply rd_some; [lia|]. apply nth_error_nth'. lia. Qed.

(* reads of optional cells *)
Lemma rdi_some : forall {A} (l : list (option A)) i x, rd l i = Ok (Some x) -> rdi l i = Ok x.
Proof. intros A l i x H. unfold rdi. rewrite H. reflexivity. Qed.
Lemma all_init_ok : forall {A} (l : list (option A)), (forall i, 0 <= i < Z.of_nat (length l) -> exists x, rd l i = Ok (Some x)) ->
  exists v, all_init l = Ok v /\ length v = length l /\ forall i x, rd l i = Ok (Some x) -> rd v i = Ok x.
Proof.
  intros A. induction l as [|o l IH]; intros H.
  - exists []. split; [reflexivity|]. split; [reflexivity|]. intros i x Hx. apply rd_inv in Hx as [Hi _]. cbn in Hi. lia.
  - destruct (H 0) as [x Hx]; [cbn; lia|]. cbn in Hx. injection Hx as ->.
    assert (HS : forall B (y : B) t i, 0 <= i -> rd (y :: t) (i + 1) = rd t i).
    { intros B y t i Hi. unfold rd. destruct (Z.ltb_spec (i + 1) 0); [lia|]. destruct (Z.ltb_spec i 0); [lia|].
      replace (Z.to_nat (i + 1)) with (Datatypes.S (Z.to_nat i)) by lia. reflexivity. }
    destruct IH as (v & E & L & P).
    { intros i Hi. destruct (H (i + 1)) as [y Hy]; [cbn [length]; lia|]. rewrite HS in Hy by lia. eauto. }
    exists (x :: v). cbn [all_init init_val bind]. rewrite E. split; [reflexivity|]. split; [cbn; congruence|].
    intros i y Hy. pose proof (rd_inv _ _ _ Hy) as [Hi _]. destruct (Z.eq_dec i 0) as [->|N].
    + cbn in *. congruence.
    + replace i with ((i - 1) + 1) in * by lia. rewrite HS in * by lia. apply P, Hy.
Qed.
