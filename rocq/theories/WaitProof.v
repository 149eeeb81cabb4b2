(** Proofs about waiting. *)
From Verif Require Import Base ConvertModel WaitModel WaitSpec.
Open Scope Z_scope.

Section Wait.
Variables (t b : Z).
Hypothesis T : 0 <= t < 2 ^ 63.

Definition inv (w : wait) : Prop := wTime w = t /\ wBegin w = b /\ 0 <= wSleep w <= t /\ 0 <= wPrev w <= t /\ 0 <= wRetry w <= 2.
Definition elapsed (now : Z) : Z := (now - b) mod two64.

Lemma elapsed_pos now : 0 <= elapsed now.
Proof. unfold elapsed. apply Z.mod_pos_bound. reflexivity. Qed.
Lemma elapsed_is now : 0 <= now - b < two64 -> elapsed now = now - b.
Proof. intros. unfold elapsed. now rewrite Z.mod_small. Qed.

Lemma new_inv : inv (waitNew t b) /\ wSleep (waitNew t b) = firstSleep t /\ wRetry (waitNew t b) = 2.
Proof.
  unfold waitNew, inv, firstSleep. cbn [wTime wBegin wSleep wPrev wRetry]. change (1000 / 10) with 100. split; [|split; reflexivity].
  split; [reflexivity|]. split; [reflexivity|]. split; [|lia]. destruct (Z.leb_spec 1000 t); [lia|].
  split; [apply Z.div_pos; lia|]. apply Z.div_le_upper_bound; lia.
Qed.

Lemma step w now more s w' : inv w -> waitMore w now = (more, s, w') -> inv w' /\
  (more = true <-> 0 < wSleep w /\ (elapsed now < t \/ 0 < wRetry w)) /\
  (more = true -> s = wSleep w' /\ 0 < s) /\ (more = false -> s = 0 /\ wSleep w' = 0) /\
  (more = true -> elapsed now < t -> s <= t - elapsed now /\ (s = t - elapsed now \/ wSleep w <= s)) /\
  (more = true -> wRetry w' = Z.max 0 (wRetry w - 1)) /\ (more = true -> t <= elapsed now -> wSleep w' = wSleep w).
Proof.
  change (2 ^ 63) with 9223372036854775808 in T.
  intros (I1 & I2 & I3 & I4 & I5) E. unfold waitMore, waitRemains in E. destruct (Z.ltb_spec 0 (wSleep w)) as [Hs|Hs].
  - rewrite I1, I2 in E. fold (elapsed now) in E. pose proof (elapsed_pos now) as P.
    assert (M : (wSleep w + wPrev w) mod two64 = wSleep w + wPrev w) by (apply Z.mod_small; unfold two64; change (2 ^ 64) with 18446744073709551616; lia).
    rewrite M in E. assert (R : (if 0 <? wRetry w then wRetry w - 1 else wRetry w) = Z.max 0 (wRetry w - 1)) by (destruct (Z.ltb_spec 0 (wRetry w)); lia).
    rewrite R in E. destruct (Z.ltb_spec (elapsed now) t) as [L|L].
    + destruct (Z.ltb_spec 0 (t - elapsed now)); [|lia]. injection E as <- <- <-. cbn [wTime wBegin wSleep wPrev wRetry]. unfold inv. cbn [wTime wBegin wSleep wPrev wRetry].
      destruct (Z.ltb_spec (t - elapsed now) (wSleep w + wPrev w)); intuition (try lia; try discriminate).
    + destruct (Z.eqb_spec (wRetry w) 0) as [Z0|Z0]; cbn [negb] in E.
      * rewrite Z.ltb_irrefl in E. injection E as <- <- <-. unfold inv. cbn [wTime wBegin wSleep wPrev wRetry]. intuition (try lia; try discriminate).
      * destruct (Z.ltb_spec 0 (wSleep w)); [|lia]. injection E as <- <- <-. unfold inv. cbn [wTime wBegin wSleep wPrev wRetry]. intuition (try lia; try discriminate).
  - cbn in E. injection E as <- <- <-. unfold inv. intuition (try lia; try discriminate).
Qed.

(** The state before call [i]; all calls before it said there is more *)
Lemma calls_at w nows i now more s : inv w -> nth_error nows i = Some now -> nth_error (waitCalls w nows) i = Some (more, s) ->
  (exists w0 w1, inv w0 /\ waitMore w0 now = (more, s, w1) /\ wRetry w0 = Z.max 0 (wRetry w - Z.of_nat i) /\ (0 < wSleep w -> 0 < wSleep w0) /\
     forall j, (j < i)%nat -> exists s', nth_error (waitCalls w nows) j = Some (true, s')) \/
  (more = false /\ s = 0 /\ exists j, (j < i)%nat /\ nth_error (waitCalls w nows) j = Some (false, 0)).
Proof.
  revert w i. induction nows as [|x r IH]; intros w i I N C; [destruct i; discriminate|].
  cbn [waitCalls] in C. destruct (waitMore w x) as [[m sl] w1] eqn:E. destruct i as [|i].
  - injection N as ->. injection C as -> ->. left. exists w, w1. split; [exact I|]. split; [exact E|]. destruct I as (_ & _ & _ & _ & I5). split; [lia|]. split; [auto|]. intros j Hj. lia.
  - destruct (step _ _ _ _ _ I E) as (I1 & B1 & B2 & B3 & _ & B5 & _). cbn [nth_error] in N, C. destruct m.
    + destruct (IH w1 i I1 N C) as [(w0 & w2 & J1 & J2 & J3 & J4 & J5)|(F1 & F2 & j & F3 & F4)].
      * left. exists w0, w2. split; [exact J1|]. split; [exact J2|]. split; [rewrite J3, (B5 eq_refl); lia|]. split; [intros _; apply J4; destruct (B2 eq_refl) as (<- & P); exact P|].
        intros [|j] Hj; cbn [waitCalls]; rewrite E; cbn [nth_error]; [eauto|]. apply J5. lia.
      * right. split; [exact F1|]. split; [exact F2|]. exists (S j). split; [lia|]. cbn [waitCalls]. rewrite E. exact F4.
    + right. destruct (B3 eq_refl) as (S0 & Z0). assert (Q : more = false /\ s = 0).
      { clear - I1 Z0 C T. revert w1 I1 Z0 i C. induction r as [|y r IH]; intros w1 I1 Z0 i C; [destruct i; discriminate|].
        cbn [waitCalls] in C. destruct (waitMore w1 y) as [[m sl'] w2] eqn:E. destruct (step _ _ _ _ _ I1 E) as (I2 & B1 & _ & B3 & _).
        assert (m = false) as -> by (destruct m; [|reflexivity]; destruct (proj1 B1 eq_refl); lia). destruct (B3 eq_refl) as (S1 & Z1).
        destruct i; [injection C as <- <-; auto|]. exact (IH w2 I2 Z1 i C). }
      destruct Q as (Q1 & Q2). split; [exact Q1|]. split; [exact Q2|]. exists O. split; [lia|]. cbn [waitCalls]. rewrite E. cbn [nth_error]. now rewrite S0.
Qed.

(** ** Bound on the number of calls *)
Definition room (f from : Z) : Z := if from - b <? t then (t - (from - b) - 1) / f + 1 else 0.
Lemma room_pos f from : 0 < f -> 0 <= room f from.
Proof. intros F. unfold room. destruct (Z.ltb_spec (from - b) t); [|lia]. assert (0 <= (t - (from - b) - 1) / f) by (apply Z.div_pos; lia). lia. Qed.
Lemma room_mono f x y : 0 < f -> x <= y -> room f y <= room f x.
Proof.
  intros F L. pose proof (room_pos f x F). unfold room in *. destruct (Z.ltb_spec (y - b) t); [|lia]. destruct (Z.ltb_spec (x - b) t); [|lia].
  assert ((t - (y - b) - 1) / f <= (t - (x - b) - 1) / f) by (apply Z.div_le_mono; lia). lia.
Qed.
Lemma room_step f x y : 0 < f -> x - b < t -> x + f <= y \/ t <= y - b -> room f y + 1 <= room f x.
Proof.
  intros F L H. unfold room. destruct (Z.ltb_spec (x - b) t); [|lia]. assert (P : 0 <= (t - (x - b) - 1) / f) by (apply Z.div_pos; lia).
  destruct (Z.ltb_spec (y - b) t); [|lia]. destruct H as [H|H]; [|lia].
  assert (Q : (t - (y - b) - 1) / f <= (t - (x - b) - 1 + -1 * f) / f) by (apply Z.div_le_mono; lia). rewrite Z.div_add in Q by lia. lia.
Qed.

Lemma bound f w from nows : 0 < f -> inv w -> b <= from -> Forall (fun n => n - b < two64) nows -> f <= wSleep w \/ t <= from - b ->
  advances from nows (waitCalls w nows) -> trues (waitCalls w nows) <= room f from + wRetry w.
Proof.
  intros F. revert w from. induction nows as [|x r IH]; intros w from I B N J A.
  { cbn. pose proof (room_pos f from F). destruct I as (_ & _ & _ & _ & I5). lia. }
  inversion N as [|? ? N1 N2]; subst. cbn [waitCalls] in *. destruct (waitMore w x) as [[m sl] w1] eqn:E. cbn [advances] in A. destruct A as (A1 & A2).
  destruct (step _ _ _ _ _ I E) as (I1 & B1 & B2 & B3 & B4 & B5 & B6). pose proof (elapsed_is x ltac:(lia)) as EL.
  destruct m.
  - destruct (B2 eq_refl) as (S1 & S2). unfold trues in *. cbn [filter fst length]. rewrite Nat2Z.inj_succ.
    destruct (Z_lt_ge_dec (x - b) t) as [L|L].
    + destruct (B4 eq_refl ltac:(lia)) as (C1 & C2). rewrite EL in *.
      assert (J' : f <= wSleep w1 \/ t <= x + sl - b) by (destruct C2 as [C2|C2]; [right; lia|left; destruct J; lia]).
      assert (Q := IH w1 (x + sl) I1 ltac:(lia) N2 J' A2). rewrite (B5 eq_refl) in Q.
      assert (R : room f (x + sl) + 1 <= room f x) by (apply room_step; [exact F|lia|]; destruct C2 as [C2|C2]; [right; lia|left; destruct J; lia]).
      pose proof (room_mono f from x F A1). destruct I as (_ & _ & _ & _ & I5). lia.
    + assert (Q := IH w1 (x + sl) I1 ltac:(lia) N2 ltac:(right; lia) A2). rewrite (B5 eq_refl) in Q. destruct (proj1 B1 eq_refl) as (_ & [K|K]); [lia|].
      pose proof (room_mono f from (x + sl) F ltac:(lia)). lia.
  - unfold trues in *. cbn [filter fst]. destruct (B3 eq_refl) as (S0 & Z0).
    assert (Q : filter fst (waitCalls w1 r) = []).
    { clear - I1 Z0 T. revert w1 I1 Z0. induction r as [|y r IH]; intros w1 I1 Z0; [reflexivity|]. cbn [waitCalls]. destruct (waitMore w1 y) as [[m sl'] w2] eqn:E.
      destruct (step _ _ _ _ _ I1 E) as (I2 & B1 & _ & B3 & _). assert (m = false) as -> by (destruct m; [|reflexivity]; destruct (proj1 B1 eq_refl); lia).
      cbn [filter fst]. apply IH; [exact I2|]. now apply B3. }
    rewrite Q. cbn [length]. pose proof (room_pos f from F). destruct I as (_ & _ & _ & _ & I5). lia.
Qed.
End Wait.
