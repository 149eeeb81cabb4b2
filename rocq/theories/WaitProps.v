(** Properties of waiting (C74). *)
From Verif Require Import Base ConvertModel WaitModel WaitSpec WaitProof.
Open Scope Z_scope.

(** C74.  Whatever the clock says, anything of 10 ms or more is tried at least twice more. *)
Theorem C74_retries : forall t b nows i more s, 10 <= t < 2 ^ 63 -> (i < 2)%nat -> nth_error (waitCalls (waitNew t b) nows) i = Some (more, s) -> more = true /\ 0 < s.
Proof.
  intros t b nows i more s T I C. destruct (new_inv t b ltac:(lia)) as (Iv & Sl & Rt).
  assert (F : 0 < firstSleep t) by (unfold firstSleep; destruct (1000 <=? t); [lia|]; apply Z.div_str_pos; lia).
  assert (G : forall i more s, (i < 2)%nat -> nth_error (waitCalls (waitNew t b) nows) i = Some (more, s) -> (forall j, (j < i)%nat -> exists s', nth_error (waitCalls (waitNew t b) nows) j = Some (true, s')) ->
    more = true /\ 0 < s).
  { clear i more s I C. intros i more s I C J. assert (L : (i < length nows)%nat).
    { assert (E : forall w l, length (waitCalls w l) = length l) by (intros w l; revert w; induction l as [|y r IH]; intros w; [reflexivity|]; cbn [waitCalls]; destruct (waitMore w y) as [[? ?] ?]; cbn [length]; now rewrite IH).
      rewrite <- (E (waitNew t b) nows). apply nth_error_Some. now rewrite C. }
    destruct (nth_error nows i) as [now|] eqn:N; [|apply nth_error_None in N; lia].
    destruct (calls_at t b ltac:(lia) _ _ _ _ _ _ Iv N C) as [(w0 & w1 & J1 & J2 & J3 & J4 & _)|(_ & _ & j & F1 & F2)].
    - destruct (step t b ltac:(lia) _ _ _ _ _ J1 J2) as (_ & B1 & B2 & _). assert (more = true) as -> by (apply B1; split; [apply J4; lia|right; lia]). split; [reflexivity|]. now apply B2.
    - destruct (J j F1) as (s' & X). congruence. }
  destruct i as [|[|i]]; [| |lia].
  - apply (G O more s); [lia|exact C|]. intros j Hj. lia.
  - apply (G 1%nat more s); [lia|exact C|]. intros [|j] Hj; [|lia]. destruct (nth_error (waitCalls (waitNew t b) nows) 0) as [[m s']|] eqn:E.
    + destruct (G O m s' ltac:(lia) E ltac:(intros; lia)) as (-> & _). eauto.
    + apply nth_error_None in E. destruct (waitCalls (waitNew t b) nows); [discriminate C|cbn in E; lia].
Qed.
Print Assumptions C74_retries.

(** C74.  Less than 10 ms is not waited for at all. *)
Theorem C74_short : forall t b nows more s, 0 <= t < 10 -> In (more, s) (waitCalls (waitNew t b) nows) -> more = false /\ s = 0.
Proof.
  intros t b nows more s T H. destruct (new_inv t b ltac:(lia)) as (Iv & Sl & Rt). unfold firstSleep in Sl. destruct (Z.leb_spec 1000 t); [lia|]. rewrite Z.div_small in Sl by lia.
  revert Iv Sl H. generalize (waitNew t b) as w. induction nows as [|y r IH]; intros w Iv Sl H; [destruct H|]. cbn [waitCalls] in H. destruct (waitMore w y) as [[m sl] w1] eqn:E.
  destruct (step t b ltac:(lia) _ _ _ _ _ Iv E) as (I1 & B1 & _ & B3 & _). assert (m = false) as -> by (destruct m; [|reflexivity]; destruct (proj1 B1 eq_refl); lia).
  destruct (B3 eq_refl) as (-> & Z0). destruct H as [H|H]; [injection H as <- <-; auto|]. exact (IH w1 I1 Z0 H).
Qed.
Print Assumptions C74_short.

(** C74.  While there is time it goes on, and never sleeps past the end. *)
Theorem C74_within : forall t b nows i now more s, 10 <= t < 2 ^ 63 -> nth_error nows i = Some now -> 0 <= now - b < t -> nth_error (waitCalls (waitNew t b) nows) i = Some (more, s) ->
  (forall j, (j < i)%nat -> exists s', nth_error (waitCalls (waitNew t b) nows) j = Some (true, s')) -> more = true /\ 0 < s <= t - (now - b).
Proof.
  intros t b nows i now more s T N R C J. destruct (new_inv t b ltac:(lia)) as (Iv & Sl & Rt).
  assert (F : 0 < firstSleep t) by (unfold firstSleep; destruct (1000 <=? t); [lia|]; apply Z.div_str_pos; lia).
  destruct (calls_at t b ltac:(lia) _ _ _ _ _ _ Iv N C) as [(w0 & w1 & J1 & J2 & J3 & J4 & _)|(_ & _ & j & F1 & F2)].
  2:{ destruct (J j F1) as (s' & X). congruence. }
  destruct (step t b ltac:(lia) _ _ _ _ _ J1 J2) as (_ & B1 & B2 & _ & B4 & _).
  assert (E : elapsed b now = now - b) by (apply elapsed_is; change (2 ^ 63) with 9223372036854775808 in T; unfold two64; change (2 ^ 64) with 18446744073709551616; lia).
  assert (more = true) as -> by (apply B1; split; [apply J4; lia|left; lia]). split; [reflexivity|]. destruct (B2 eq_refl) as (_ & P). destruct (B4 eq_refl ltac:(lia)) as (Q & _). lia.
Qed.
Print Assumptions C74_within.

(** C74.  When the time is over it ends, after the two retries. *)
Theorem C74_ends : forall t b nows i now more s, 0 <= t < 2 ^ 63 -> nth_error nows i = Some now -> t <= now - b < 2 ^ 64 -> (2 <= i)%nat -> nth_error (waitCalls (waitNew t b) nows) i = Some (more, s) ->
  more = false /\ s = 0.
Proof.
  intros t b nows i now more s T N R I C. destruct (new_inv t b T) as (Iv & Sl & Rt).
  destruct (calls_at t b T _ _ _ _ _ _ Iv N C) as [(w0 & w1 & J1 & J2 & J3 & J4 & _)|(F1 & F2 & _)]; [|auto].
  destruct (step t b T _ _ _ _ _ J1 J2) as (_ & B1 & _ & B3 & _).
  assert (E : elapsed b now = now - b) by (apply elapsed_is; unfold two64; lia).
  assert (more = false) as -> by (destruct more; [|reflexivity]; destruct (proj1 B1 eq_refl) as (_ & [K|K]); lia). split; [reflexivity|]. now apply B3.
Qed.
Print Assumptions C74_ends.

(** C74.  Once it has ended, it has ended. *)
Theorem C74_stays : forall t b nows i j s more s', 0 <= t < 2 ^ 63 -> nth_error (waitCalls (waitNew t b) nows) i = Some (false, s) -> (i <= j)%nat ->
  nth_error (waitCalls (waitNew t b) nows) j = Some (more, s') -> more = false /\ s' = 0.
Proof.
  intros t b nows i j s more s' T H1 L H2. destruct (new_inv t b T) as (Iv & _).
  assert (E : forall w l, length (waitCalls w l) = length l) by (intros w l; revert w; induction l as [|y r IH]; intros w; [reflexivity|]; cbn [waitCalls]; destruct (waitMore w y) as [[? ?] ?]; cbn [length]; now rewrite IH).
  destruct (nth_error nows j) as [now|] eqn:N.
  2:{ apply nth_error_None in N. rewrite <- (E (waitNew t b)) in N. apply nth_error_None in N. congruence. }
  destruct (calls_at t b T _ _ _ _ _ _ Iv N H2) as [(w0 & w1 & J1 & J2 & J3 & J4 & J5)|(F1 & F2 & _)]; [|auto].
  destruct (Nat.eq_dec i j) as [->|Ne].
  - rewrite H1 in H2. injection H2 as <- <-. split; [reflexivity|]. destruct (step t b T _ _ _ _ _ J1 J2) as (_ & _ & _ & B3 & _). now apply B3.
  - destruct (J5 i ltac:(lia)) as (x & X). congruence.
Qed.
Print Assumptions C74_stays.

(** C74.  If the clock goes on by the time slept, it ends after a number of calls that depends on the time only. *)
Theorem C74_bounded : forall t b nows, 10 <= t < 2 ^ 63 -> Forall (fun n => n - b < 2 ^ 64) nows -> advances b nows (waitCalls (waitNew t b) nows) ->
  trues (waitCalls (waitNew t b) nows) <= (t - 1) / firstSleep t + 3.
Proof.
  intros t b nows T N A. destruct (new_inv t b ltac:(lia)) as (Iv & Sl & Rt).
  assert (F : 0 < firstSleep t) by (unfold firstSleep; destruct (1000 <=? t); [lia|]; apply Z.div_str_pos; lia).
  assert (Q := bound t b ltac:(lia) (firstSleep t) _ b nows F Iv ltac:(lia) N ltac:(left; lia) A). rewrite Rt in Q. unfold room in Q. rewrite Z.sub_diag in Q.
  destruct (Z.ltb_spec 0 t); [|lia]. replace (t - 0 - 1) with (t - 1) in Q by lia. lia.
Qed.
Print Assumptions C74_bounded.

(** A wait of a second: sleeps of 100, 200, 300 and 400 ms, then two more calls if the clock jumps at once. *)
Example C74_nontrivial : waitCalls (waitNew 1000 5000) [5000; 5100; 5300; 5600; 6000; 6100] = [(true, 100); (true, 200); (true, 300); (true, 400); (false, 0); (false, 0)] /\
  waitCalls (waitNew 1000 5000) [9000; 9100; 9200] = [(true, 100); (true, 100); (false, 0)] /\
  advances 5000 [5000; 5100; 5300; 5600; 6000] [(true, 100); (true, 200); (true, 300); (true, 400); (false, 0)] /\ (1000 - 1) / firstSleep 1000 + 3 = 12.
Proof. split; [vm_compute; reflexivity|]. split; [vm_compute; reflexivity|]. split; [cbn; lia|reflexivity]. Qed.
