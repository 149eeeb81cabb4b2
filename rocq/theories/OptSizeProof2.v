(** Times as text *)
From Coq Require Import Lia String.
From Verif Require Import Base Str RegNameModel ConvertModel NumModel NumSpec NumProof OptSizeModel OptSizeSpec OptSizeProof.
Open Scope Z_scope.
Open Scope list_scope.

Definition timeUnitOf (s : str) : nat * Z :=
  let size := List.length s in
  let c1 := lower (nth (size - 1) s 0) in
  if (1 <? size)%nat && (lower (nth (size - 2) s 0) =? 109) && (c1 =? 115) then (2%nat, 1)
  else if (0 <? size)%nat then
    (if c1 =? 115 then (1%nat, 1000) else if c1 =? 109 then (1%nat, 60000) else if c1 =? 104 then (1%nat, 3600000)
     else if c1 =? 100 then (1%nat, 86400000) else if c1 =? 119 then (1%nat, 604800000) else (0%nat, 1000))
  else (0%nat, 1000).
Definition timeOf (s num : str) (m : Z) : res Z :=
  match num with
  | [] => Err EFormat
  | _ => if (64 <? List.length num)%nat then UB else let* n := cvtZToInt64 10 num in if n <=? Z.quot int64Max m then (if n * m <? int64Min then UB else Ok (n * m)) else Err EFormat
  end.
Lemma parse_time s : parseTime s = let '(q, m) := timeUnitOf s in timeOf s (firstn (List.length s - q) s) m.
Proof.
  unfold parseTime. fold (timeUnitOf s). cbv zeta. change ((let '(q, m) := timeUnitOf s in if (0 <? List.length s - q)%nat then let* n := cvtZSubNToInt64 s (List.length s - q) in if n <=? Z.quot int64Max m then if n * m <? int64Min then UB else Ok (n * m) else Err EFormat else Err EFormat)
    = (let '(q, m) := timeUnitOf s in timeOf s (firstn (List.length s - q) s) m)).
  destruct (timeUnitOf s) as [q m]. unfold timeOf, cvtZSubNToInt64. destruct (Nat.ltb_spec 0 (List.length s - q)) as [L|L].
  - assert (LN : List.length (firstn (List.length s - q) s) = (List.length s - q)%nat) by (apply firstn_length_le; lia). destruct (firstn (List.length s - q) s) as [|c r] eqn:F; [cbn in LN; lia|]. rewrite LN. destruct (64 <? List.length s - q)%nat; reflexivity.
  - replace (List.length s - q)%nat with 0%nat by lia. reflexivity.
Qed.

Lemma lower_inv c l : 97 <= l <= 122 -> (lower c = l <-> sameLetter c l).
Proof. intros L. unfold lower, sameLetter. destruct (Z.leb_spec 65 c), (Z.leb_spec c 90); cbn [andb]; lia. Qed.

(** What is taken off is one of the units *)
Lemma unit_sound s q m : timeUnitOf s = (q, m) -> exists num us u, s = num ++ us /\ List.length us = q /\ sameLetters us u /\ timeUnit u m.
Proof.
  unfold timeUnitOf. cbv zeta. destruct s as [|a s] using rev_ind; [intros [= <- <-]; exists [], [], []; repeat split; [constructor|left; reflexivity]|]. clear IHs.
  replace (nth (List.length (s ++ [a]) - 1) (s ++ [a]) 0) with a by (rewrite app_nth2 by (rewrite app_length; cbn; lia); rewrite app_length; cbn [List.length]; replace (List.length s + 1 - 1 - List.length s)%nat with 0%nat by lia; reflexivity).
  replace (0 <? List.length (s ++ [a]))%nat with true by (symmetry; apply Nat.ltb_lt; rewrite app_length; cbn; lia).
  assert (ONE : forall l m', 97 <= l <= 122 -> In ([l], m') [(txt "s", 1000); (txt "m", 60 * 1000); (txt "h", 60 * 60 * 1000); (txt "d", 24 * 60 * 60 * 1000); (txt "w", 7 * 24 * 60 * 60 * 1000)] -> lower a = l ->
    exists num us u, s ++ [a] = num ++ us /\ List.length us = 1%nat /\ sameLetters us u /\ timeUnit u m').
  { intros l m' L I E. exists s, [a], [l]. split; [reflexivity|]. split; [reflexivity|]. split; [constructor; [apply lower_inv; assumption|constructor]|]. right. right. exact I. }
  destruct (_ && _ && _) eqn:MS.
  - apply Bool.andb_true_iff in MS. destruct MS as [MS C1]. apply Bool.andb_true_iff in MS. destruct MS as [Z1 C2]. apply Nat.ltb_lt in Z1. apply Z.eqb_eq in C1, C2. intros [= <- <-].
    destruct s as [|b s] using rev_ind; [cbn in Z1; lia|]. clear IHs. 
    replace (nth (List.length ((s ++ [b]) ++ [a]) - 2) ((s ++ [b]) ++ [a]) 0) with b in C2
      by (rewrite <- app_assoc, app_nth2 by (rewrite app_length; cbn; lia); rewrite app_length; cbn [List.length app]; replace (List.length s + 2 - 2 - List.length s)%nat with 0%nat by lia; reflexivity).
    exists s, [b; a], (txt "ms"). split; [rewrite <- app_assoc; reflexivity|]. split; [reflexivity|]. split; [|right; left; reflexivity].
    constructor; [apply (lower_inv b 109); [lia|exact C2]|]. constructor; [apply (lower_inv a 115); [lia|exact C1]|constructor].
  - clear MS. destruct (Z.eqb_spec (lower a) 115) as [E|_]; [intros [= <- <-]; apply (ONE 115); [lia|cbn; tauto|exact E]|].
    destruct (Z.eqb_spec (lower a) 109) as [E|_]; [intros [= <- <-]; apply (ONE 109); [lia|cbn; tauto|exact E]|].
    destruct (Z.eqb_spec (lower a) 104) as [E|_]; [intros [= <- <-]; apply (ONE 104); [lia|cbn; tauto|exact E]|].
    destruct (Z.eqb_spec (lower a) 100) as [E|_]; [intros [= <- <-]; apply (ONE 100); [lia|cbn; tauto|exact E]|].
    destruct (Z.eqb_spec (lower a) 119) as [E|_]; [intros [= <- <-]; apply (ONE 119); [lia|cbn; tauto|exact E]|].
    intros [= <- <-]. exists (s ++ [a]), [], []. split; [rewrite app_nil_r; reflexivity|]. split; [reflexivity|]. split; [constructor|left; reflexivity].
Qed.
Lemma digitsIs_last ds n : digitsIs 10 ds n -> exists p c, ds = p ++ [c] /\ dec c.
Proof. intros H. inversion H as [c d H1 H2|s v c d H1 H2 H3]; subst; [exists [], c|exists s, c]; (split; [reflexivity|]); eapply digitIs_dec; eassumption. Qed.
Lemma signed_last num n : signedText 10 num n -> exists p c, num = p ++ [c] /\ dec c.
Proof.
  intros [(sg & p & ds & _ & _ & -> & D)|(p & ds & w & _ & -> & D & _)]; destruct (digitsIs_last _ _ D) as (q & c & -> & C).
  - exists (sg ++ p ++ q), c. split; [rewrite <- !app_assoc; reflexivity|exact C].
  - exists (45 :: p ++ q), c. split; [cbn; rewrite <- !app_assoc; reflexivity|exact C].
Qed.
(** The unit of a time is found *)
Lemma nth_back (p t : str) k : (k < List.length t)%nat -> nth (List.length (p ++ t) - S k) (p ++ t) 0 = nth (List.length t - S k) t 0.
Proof. intros H. rewrite app_nth2 by (rewrite app_length; lia). rewrite app_length. f_equal. lia. Qed.
Lemma unit_complete s num n m : timeText s num n m -> timeUnitOf s = ((List.length s - List.length num)%nat, m) /\ firstn (List.length num) s = num.
Proof.
  intros (u & us & -> & N & L & U). split; [|rewrite <- (Nat.add_0_r (List.length num)), firstn_app_2; apply app_nil_r]. destruct (signed_last num n N) as (p & c & -> & C). unfold dec in C.
  assert (LC : lower c = c) by (unfold lower; replace (65 <=? c) with false by (symmetry; apply Z.leb_gt; lia); reflexivity).
  unfold timeUnitOf. cbv zeta. rewrite <- app_assoc. cbn [app].
  assert (L0 : (0 <? List.length (p ++ c :: us))%nat = true) by (apply Nat.ltb_lt; rewrite app_length; cbn; lia). rewrite L0.
  assert (NE : forall x, 97 <= x -> (c =? x) = false) by (intros x Hx; apply Z.eqb_neq; lia).
  destruct U as [U|[U|U]].
  - injection U as <- <-. inversion L; subst us. rewrite (nth_back p [c] 0) by (cbn; lia). cbn [List.length Nat.sub nth]. rewrite LC, (NE 115), (NE 109), (NE 104), (NE 100), (NE 119) by lia. rewrite Bool.andb_false_r. f_equal. rewrite !app_length. cbn. lia.
  - injection U as <- <-. change (txt "ms") with [109; 115] in L. inversion L as [|x y us' u' Lx L' E1 E2]; subst. inversion L' as [|x' y' us'' u'' Lx' L'' E1 E2]; subst. inversion L''; subst.
    rewrite (nth_back p [c; x; x'] 0), (nth_back p [c; x; x'] 1) by (cbn; lia). cbn [List.length Nat.sub nth].
    assert (E1 : lower x = 109) by (apply lower_inv; [lia|exact Lx]). assert (E2 : lower x' = 115) by (apply lower_inv; [lia|exact Lx']). rewrite E1, E2.
    replace (1 <? List.length (p ++ [c; x; x']))%nat with true by (symmetry; apply Nat.ltb_lt; rewrite app_length; cbn; lia). change ((true && (109 =? 109) && (115 =? 115))) with true. cbv iota. f_equal. rewrite !app_length. cbn. lia.
  - assert (Q : exists l, u = [l] /\ 97 <= l <= 122 /\ l <> 0) by (cbn in U; repeat (destruct U as [U|U]; [injection U as <- <-; eexists; split; [reflexivity|lia]|]); destruct U).
    destruct Q as (l & -> & Ll & _). inversion L as [|x y us' u' Lx L' E1 E2]; subst. inversion L'; subst. rewrite (nth_back p [c; x] 0) by (cbn; lia). 
    replace (nth (List.length (p ++ [c; x]) - 2) (p ++ [c; x]) 0) with c by (rewrite (nth_back p [c; x] 1) by (cbn; lia); reflexivity). cbn [List.length Nat.sub nth]. rewrite LC, (NE 109) by lia. rewrite Bool.andb_false_r. cbn [andb].
    assert (E1 : lower x = l) by (apply lower_inv; [lia|exact Lx]). rewrite E1.
    assert (LL : (List.length (p ++ [c; x]) - List.length (p ++ [c]))%nat = 1%nat) by (rewrite !app_length; cbn; lia). rewrite LL.
    cbn in U. repeat (destruct U as [U|U]; [injection U as <- <-; reflexivity|]). destruct U.
Qed.
Lemma timeUnit_pos u m : timeUnit u m -> 1 <= m <= 604800000.
Proof. intros U. cbn in U. repeat (destruct U as [U|U]; [injection U as <- <-; lia|]). destruct U. Qed.

(** What a time is read as *)
Definition timeValue (num : str) (n m : Z) : res Z :=
  if (64 <? List.length num)%nat then UB else if (n * m <? int64Min) && (int64Min <=? n) then UB else if (int64Max <? n * m) || (n <? int64Min) then Err EFormat else Ok (n * m).
Theorem time_text s num n m : timeText s num n m -> parseTime s = timeValue num n m.
Proof.
  intros T. destruct (unit_complete s num n m T) as [E F]. rewrite parse_time, E. cbv iota beta. assert (LE : (List.length num <= List.length s)%nat) by (destruct T as (u & us & -> & _); rewrite app_length; lia).
  replace (List.length s - (List.length s - List.length num))%nat with (List.length num) by lia. rewrite F. destruct T as (u & us & -> & N & L & U). pose proof (timeUnit_pos u m U) as Pm. destruct (signed_last num n N) as (p & c & E1 & _).
  unfold timeOf, timeValue. destruct num as [|c0 num0]; [destruct p; discriminate|]. destruct (64 <? List.length (c0 :: num0))%nat; [reflexivity|]. assert (B : 2 <= 10 <= 16) by lia. unfold int64Min, int64Max in *.
  destruct (cvtZToInt64 10 (c0 :: num0)) as [v|e|] eqn:C; cbn [bind].
  - apply (cvtZToInt64_spec 10 B) in C. destruct C as [C1 C2]. assert (v = n) as ->.
    { assert (Q : forall w, signedText 10 (c0 :: num0) w -> exists b : bool, strto 10 (c0 :: num0) = (b, (if b then - w else w), [])).
      { intros w [H|(p' & ds & w' & Hp & E' & D & ->)]; [exists false; apply unsigned_strto; [exact B|exact H]|]. exists true. rewrite E'. rewrite Z.opp_involutive. exact (strto_sound 10 B [45] p' ds w' (or_intror (or_intror eq_refl)) Hp D). }
      destruct (Q v C1) as (b1 & Q1), (Q n N) as (b2 & Q2). rewrite Q1 in Q2. injection Q2 as Q3 Q4. subst b2. destruct b1; lia. }
    unfold two63 in C2. rewrite Z.quot_div_nonneg by lia. destruct (Z.leb_spec n (9223372036854775807 / m)) as [L1|L1].
    + assert (n * m <= 9223372036854775807) by (pose proof (Z.mul_div_le 9223372036854775807 m ltac:(lia)); nia). replace (-9223372036854775808 <=? n) with true by (symmetry; apply Z.leb_le; lia). rewrite Bool.andb_true_r.
      destruct (Z.ltb_spec (n * m) (-9223372036854775808)); [reflexivity|]. replace (9223372036854775807 <? n * m) with false by (symmetry; apply Z.ltb_ge; lia). replace (n <? -9223372036854775808) with false by (symmetry; apply Z.ltb_ge; lia). reflexivity.
    + assert (9223372036854775807 < n * m) by (pose proof (Z.mul_succ_div_gt 9223372036854775807 m ltac:(lia)); nia). replace (n * m <? -9223372036854775808) with false by (symmetry; apply Z.ltb_ge; lia). replace (9223372036854775807 <? n * m) with true by (symmetry; apply Z.ltb_lt; lia). reflexivity.
  - destruct (cvt_kind (c0 :: num0)) as [[w K]|K]; rewrite K in C; [discriminate|]. injection C as <-.
    assert (R : ~ (-9223372036854775808 <= n < 9223372036854775808)) by (intros R; assert (K' : cvtZToInt64 10 (c0 :: num0) = Ok n) by (apply (cvtZToInt64_spec 10 B); split; [exact N|exact R]); congruence).
    destruct (Z.ltb_spec n (-9223372036854775808)) as [Q|Q].
    + replace (-9223372036854775808 <=? n) with false by (symmetry; apply Z.leb_gt; lia). rewrite Bool.andb_false_r, Bool.orb_true_r. reflexivity.
    + assert (9223372036854775807 < n * m) by nia. replace (n * m <? -9223372036854775808) with false by (symmetry; apply Z.ltb_ge; lia). replace (9223372036854775807 <? n * m) with true by (symmetry; apply Z.ltb_lt; lia). reflexivity.
  - destruct (cvt_kind (c0 :: num0)) as [[w K]|K]; rewrite K in C; discriminate.
Qed.
Theorem time_other s : (forall num n m, ~ timeText s num n m) -> parseTime s = Err EFormat \/ ((64 < List.length s)%nat /\ parseTime s = UB).
Proof.
  intros NT. rewrite parse_time. destruct (timeUnitOf s) as [q m] eqn:E. destruct (unit_sound s q m E) as (num & us & u & -> & <- & L & U).
  replace (List.length (num ++ us) - List.length us)%nat with (List.length num + 0)%nat by (rewrite app_length; lia). rewrite firstn_app_2, app_nil_r. unfold timeOf. destruct num as [|c r]; [left; reflexivity|].
  destruct (Nat.ltb_spec 64 (List.length (c :: r))) as [Q|Q]; [right; split; [rewrite app_length; lia|reflexivity]|]. destruct (cvt_kind (c :: r)) as [[w K]|K]; rewrite K; cbn [bind]; [|left; reflexivity].
  exfalso. assert (B : 2 <= 10 <= 16) by lia. apply (cvtZToInt64_spec 10 B) in K. apply (NT (c :: r) w m). exists u, us. repeat split; try assumption. apply K.
Qed.
