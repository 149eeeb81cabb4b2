From Verif Require Import Base ConvertModel ConvertSpec ConvertProof BlockMapModel BlockMapSpec.
Open Scope Z_scope.

Lemma wv v : 0 <= v < 2 ^ 64 -> exists t, wVar v = Ok t /\ (1 <= length t)%nat /\ forall rest, rVar (t ++ rest) = Ok (v, rest).
Proof.
  intros H. unfold wVar, u64. rewrite Z.mod_small by (unfold two64; lia). destruct (roundtrip v) as (t & E & _ & Ht & _ & R); [unfold isU64, two64; lia|].
  exists t. split; [exact E|]. split; [|intros rest; unfold rVar; rewrite R; reflexivity]. destruct Ht as (pre & l & -> & _). rewrite app_length. cbn. lia.
Qed.
Lemma lor_shift f k x : 0 <= k -> 0 <= f < 2 ^ k -> Z.lor f (Z.shiftl x k) = f + 2 ^ k * x.
Proof.
  intros Hk Hf. assert (E : Z.land f (Z.shiftl x k) = 0).
  { apply Z.bits_inj'. intros n Hn. rewrite Z.land_spec, Z.bits_0. destruct (Z.ltb_spec n k).
    - rewrite Z.shiftl_spec_low by lia. apply andb_false_r.
    - rewrite <- (Z.mod_small f (2 ^ k)) by lia. rewrite Z.mod_pow2_bits_high by lia. reflexivity. }
  rewrite <- Z.lxor_lor by exact E. rewrite <- Z.add_nocarry_lxor by exact E. rewrite Z.shiftl_mul_pow2 by lia. lia.
Qed.
Lemma bit_low f k x n : 0 <= n < k -> Z.testbit (f + 2 ^ k * x) n = Z.testbit f n.
Proof.
  intros H. rewrite <- (Z.mod_pow2_bits_low (f + 2 ^ k * x) k n) by lia. rewrite Z.mul_comm, Z_mod_plus_full. apply Z.mod_pow2_bits_low. lia.
Qed.
Lemma shift_high f k x : 0 <= k -> 0 <= f < 2 ^ k -> Z.shiftr (f + 2 ^ k * x) k = x.
Proof. intros Hk Hf. rewrite Z.shiftr_div_pow2 by lia. rewrite Z.mul_comm, Z_div_plus by lia. rewrite Z.div_small by lia. lia. Qed.
Lemma u64_small x : 0 <= x < 2 ^ 64 -> u64 x = x.
Proof. intros H. unfold u64. apply Z.mod_small. unfold two64. lia. Qed.
Lemma i64_small x : 0 <= x < 2 ^ 63 -> i64 x = x.
Proof. intros H. unfold i64. rewrite Z.mod_small by (unfold two64; lia). destruct (Z.ltb_spec x (2 ^ 63)); lia. Qed.
Lemma i64_signed x : - 2 ^ 63 <= x < 2 ^ 63 -> i64 x = x.
Proof. intros H. unfold i64, two64. cbv zeta. destruct (Z.ltb_spec (x mod 18446744073709551616) (2 ^ 63)); lia. Qed.
Lemma refEncode_spec f r : 0 <= f < 8 -> 0 <= r < 2 ^ 29 -> refEncode f r = f + 2 ^ 3 * r.
Proof. intros Hf Hr. unfold refEncode. rewrite Z.mod_small by (rewrite Z.shiftl_mul_pow2 by lia; unfold two32; lia). apply lor_shift; lia. Qed.

(** * Runs *)
Fixpoint isRuns (key : item -> Z) (gs : list (list item)) : Prop :=
  match gs with
  | [] => True
  | g :: rest => (exists x g', g = x :: g' /\ forall y, In y g -> key y = key x) /\
                 (match rest with (y :: _) :: _ => forall x, In x g -> key x <> key y | _ => True end) /\ isRuns key rest
  end.
Lemma runs_concat key l : concat (runs key l) = l.
Proof.
  induction l as [|x l IH]; [reflexivity|]. cbn [runs]. destruct (runs key l) as [|[|y g] gs]; cbn in *; [now subst|now rewrite IH|]. destruct (key x =? key y); cbn; now rewrite IH.
Qed.
Lemma runs_isRuns key l : isRuns key (runs key l).
Proof.
  induction l as [|x l IH]; [exact I|]. cbn [runs]. destruct (runs key l) as [|[|y g] gs].
  - cbn. split; [|auto]. exists x, []. split; [reflexivity|]. intros z [<-|[]]. reflexivity.
  - cbn in IH. destruct IH as ((? & ? & E & _) & _). discriminate.
  - destruct IH as ((y' & g' & E & H1) & H2 & H3). injection E as <- <-. destruct (Z.eqb_spec (key x) (key y)) as [Q|Q].
    + cbn [isRuns]. split; [|split; [|exact H3]].
      * exists x, (y :: g). split; [reflexivity|]. intros z [<-|Hz]; [reflexivity|]. rewrite Q. now apply H1.
      * destruct gs as [|[|z t] gs]; auto. intros w [<-|Hw]; [rewrite Q; apply H2; now left|now apply H2].
    + cbn [isRuns]. split; [exists x, []; split; [reflexivity|]; intros z [<-|[]]; reflexivity|]. split; [intros z [<-|[]]; exact Q|]. split; [exists y, g; auto|auto].
Qed.

(** * Chains of items of one reference *)
Definition adj (a b : item) : Prop :=
  (iOff a = iOff b -> iSbs a = iSbs b /\ iSize a = iSize b /\ iBlock b = iBlock a + 1) /\ (iOff a <> iOff b -> iOff b = iOff a + iSize a).
Fixpoint chain (l : list item) : Prop := match l with [] => True | a :: r => (match r with b :: _ => adj a b | [] => True end) /\ chain r end.
Lemma chain_tl a l : chain (a :: l) -> chain l.
Proof. destruct l; cbn; tauto. Qed.
Lemma chain_app a : forall b, chain (a ++ b) -> chain a /\ chain b.
Proof.
  induction a as [|x a IH]; intros b H; [cbn; auto|]. cbn [app] in H. pose proof (chain_tl _ _ H) as H'. destruct (IH _ H') as (A & B). split; [|exact B].
  destruct a as [|y a]; [cbn; auto|]. split; [exact (proj1 H)|exact A].
Qed.
Definition rdOf (x : item) : refData := mkRef (iRef x) (iSbs x) (iBundle x) (iOff x) (iSize x) (iBlock x + 1).

(** items of a super block, block numbers counting from [b] *)
Fixpoint seqf (cs : nat) (R S B O Z0 b : Z) (g : list item) : Prop :=
  match g with [] => True | x :: r => x = mkItem R S B O Z0 b (iSum x) /\ length (iSum x) = cs /\ seqf cs R S B O Z0 (b + 1) r end.
Lemma chain_seqf cs R B x g : chain (x :: g) -> (forall y, In y (x :: g) -> iOff y = iOff x) -> Forall (itemOk cs) (x :: g) -> (forall y, In y (x :: g) -> iRef y = R /\ iBundle y = B) ->
  seqf cs R (iSbs x) B (iOff x) (iSize x) (iBlock x) (x :: g).
Proof.
  revert x. induction g as [|y g IH]; intros x C O F RB.
  - cbn. destruct (Forall_inv F) as (_ & _ & _ & _ & _ & _ & _ & L). destruct (RB x (or_introl eq_refl)) as (<- & <-). split; [now destruct x|]. split; [exact L|exact I].
  - destruct C as ((A & _) & C). assert (Oy : iOff y = iOff x) by (apply O; right; now left). destruct (A (eq_sym Oy)) as (A1 & A2 & A3).
    destruct (Forall_inv F) as (_ & _ & _ & _ & _ & _ & _ & L). pose proof (Forall_inv_tail F) as F'. destruct (RB x (or_introl eq_refl)) as (E1 & E2).
    cbn [seqf]. split; [subst; now destruct x|]. split; [exact L|]. rewrite A1, A2, <- A3, <- Oy. apply IH; auto.
    + intros z Hz. rewrite Oy. apply O. now right.
    + intros z Hz. apply RB. now right.
Qed.
Lemma readSums_spec cs R S B O Z0 : forall g b sum tail, seqf cs R S B O Z0 b g -> length sum = cs -> 0 <= b -> b + Z.of_nat (length g) < 2 ^ 64 -> exists sum', length sum' = cs /\
  readSums (length g) cs (mkItem R S B O Z0 b sum) (concat (map iSum g) ++ tail) = (g, sum', tail).
Proof.
  induction g as [|x g IH]; intros b sum tail H L Hb Hm; [exists sum; split; [exact L|reflexivity]|]. cbn [length] in Hm. destruct H as (E & Lx & H). cbn [length readSums map concat]. cbn [iSum iRef iSbs iBundle iOff iSize iBlock].
  rewrite <- !app_assoc. assert (K0 : firstn cs (iSum x ++ concat (map iSum g) ++ tail) = iSum x) by (rewrite <- Lx, firstn_app, Nat.sub_diag, firstn_O, firstn_all, app_nil_r; reflexivity).
  assert (K : skipn cs (iSum x ++ concat (map iSum g) ++ tail) = concat (map iSum g) ++ tail) by (rewrite <- Lx, skipn_app, skipn_all, Nat.sub_diag; reflexivity).
  assert (K2 : skipn (length (iSum x)) sum = []) by (rewrite Lx, <- L; apply skipn_all). rewrite K0, K2, app_nil_r.
  rewrite u64_small by lia. destruct (IH (b + 1) (iSum x) tail H Lx ltac:(lia) ltac:(lia)) as (s' & L' & E'). rewrite K, E'. exists s'. split; [exact L'|]. now rewrite <- E.
Qed.
Lemma seqf_last cs R S B O Z0 : forall g b x, seqf cs R S B O Z0 b (x :: g) -> rdOf (last (x :: g) x) = mkRef R S B O Z0 (b + Z.of_nat (length (x :: g))) /\ iSize (last (x :: g) x) = Z0.
Proof.
  induction g as [|y g IH]; intros b x H.
  - destruct H as (E & _). cbn [last length]. split; [|now rewrite E]. rewrite E. unfold rdOf. cbn. f_equal.
  - destruct H as (E & _ & H). cbn [last]. assert (Q : forall d d', last (y :: g) d = last (y :: g) d') by (clear; revert y; induction g as [|z g IH]; intros y d d'; [reflexivity|cbn; apply (IH z)]).
    change (match g with [] => y | _ :: _ => last g x end) with (last (y :: g) x). rewrite (Q x y). destruct (IH (b + 1) y H) as (I1 & I2). split; [|exact I2]. rewrite I1. f_equal. cbn [length]. lia.
Qed.
Lemma last_default {A} (x : A) l d d' : last (x :: l) d = last (x :: l) d'.
Proof. revert x. induction l as [|z l IH]; intros x; [reflexivity|]. cbn. apply (IH z). Qed.
Lemma last_app2 {A} (a : list A) x b d : last (a ++ x :: b) d = last (x :: b) d.
Proof. induction a as [|y a IH]; [reflexivity|]. cbn [app]. destruct a; cbn [app last] in *; exact IH. Qed.

Lemma lor_flags a b c : Z.lor (bit a 1) (Z.lor (bit b 4) (bit c 2)) = bit a 1 + bit b 4 + bit c 2.
Proof. destruct a, b, c; reflexivity. Qed.
Lemma lor_flags2 a b c : Z.lor (bit a 1) (Z.lor (bit b 2) (bit c 4)) = bit a 1 + bit b 2 + bit c 4.
Proof. destruct a, b, c; reflexivity. Qed.
Lemma tb a b c x : let e := bit a 1 + bit b 4 + bit c 2 + 2 ^ 3 * x in Z.testbit e 0 = a /\ Z.testbit e 2 = b /\ Z.testbit e 1 = c /\ Z.shiftr e 3 = x.
Proof. cbv zeta. rewrite !bit_low by lia. rewrite shift_high by (destruct a, b, c; cbn; lia). destruct a, b, c; auto. Qed.

Definition dlast (l : list item) : item := last l (mkItem 0 0 0 0 0 0 []).
Lemma sbBlocks_pos bs s : 0 < bs -> 0 < s -> 0 < sbBlocks bs s.
Proof. intros Hb Hs. unfold sbBlocks. pose proof (Z.div_pos s bs ltac:(lia) Hb). destruct (Z.eqb_spec (s mod bs) 0) as [E|E]; [|lia]. assert (s = bs * (s / bs)) by (rewrite Z_div_exact_full_2 with (b := bs) at 1; lia). nia. Qed.

Section Read.
Variable bs : Z. Variable cs : nat.
Hypothesis Hbs : 0 < bs < 2 ^ 62.

(** Block total, block offset and checksums. *)
Lemma total_sim (cont : bool) (rdw rdr : refData) sb g' tail it R B : let g := sb :: g' in
  seqf cs R (iSbs sb) B (iOff sb) (iSize sb) (iBlock sb) g -> itemOk cs sb -> Z.of_nat (length g) <= 2 ^ 31 -> rdBlock rdw = rdBlock rdr -> 0 <= rdBlock rdw <= iBlock sb -> (cont = false -> rdBlock rdw = 0) ->
  rdRef rdw = R -> rdSbs rdw = iSbs sb -> rdBundle rdw = B -> rdOff rdw = iOff sb -> rdSize rdw = iSize sb ->
  iRef it = R -> iSbs it = iSbs sb -> iBundle it = B -> iOff it = iOff sb -> iSize it = iSize sb -> length (iSum it) = cs ->
  let total := Z.of_nat (length g) in
  let totFlag := cont || negb (iBlock sb =? 0) || negb (total =? sbBlocks bs (iSbs sb)) in
  let gap := u64 (iBlock sb - rdBlock rdw) in
  exists b rd2,
   (if totFlag then let* b := wVar (Z.lor (Z.shiftl (total - 1) 1 mod two32) (bit (0 <? gap) 1)) in
          if 0 <? gap then let* c := wVar gap in Ok (b ++ c, mkRef (rdRef rdw) (rdSbs rdw) (rdBundle rdw) (rdOff rdw) (rdSize rdw) (iBlock sb)) else Ok (b, rdw)
    else Ok ([], rdw)) = Ok (b, rd2) /\
   mkRef (rdRef rd2) (rdSbs rd2) (rdBundle rd2) (rdOff rd2) (rdSize rd2) (u64 (rdBlock rd2 + total)) = rdOf (dlast g) /\
   (cont = true -> (1 <= length b)%nat) /\
   (if totFlag then let* (x, b) := rVar (b ++ concat (map iSum g) ++ tail) in
          let* (block, b') := if Z.testbit x 0 then let* (y, b2) := rVar b in Ok (u64 (rdBlock rdr + y), b2) else Ok (rdBlock rdr, b) in
          Ok (u64 (Z.shiftr x 1 + 1), block, b')
    else Ok (sbBlocks bs (iSbs sb), rdBlock rdr, b ++ concat (map iSum g) ++ tail)) = Ok (total, iBlock sb, concat (map iSum g) ++ tail) /\
   exists sum', length sum' = cs /\ readSums (Z.to_nat total) cs (mkItem (iRef it) (iSbs it) (iBundle it) (iOff it) (iSize it) (iBlock sb) (iSum it)) (concat (map iSum g) ++ tail) = (g, sum', tail).
Proof.
  intros g Sq Ok1 Lt Eb Hb Hc W1 W2 W3 W4 W5 I1 I2 I3 I4 I5 I6 total totFlag gap. destruct Ok1 as (O1 & O2 & O3 & O4 & O5 & O6 & O7 & O8).
  assert (Tp : 1 <= total) by (unfold total, g; cbn [length]; lia).
  assert (Gp : gap = iBlock sb - rdBlock rdw) by (apply u64_small; lia).
  destruct (readSums_spec cs R (iSbs sb) B (iOff sb) (iSize sb) g (iBlock sb) (iSum it) tail Sq I6 ltac:(lia) ltac:(lia)) as (sum' & Ls & Es).
  assert (RS : exists sum', length sum' = cs /\ readSums (Z.to_nat total) cs (mkItem (iRef it) (iSbs it) (iBundle it) (iOff it) (iSize it) (iBlock sb) (iSum it)) (concat (map iSum g) ++ tail) = (g, sum', tail)).
  { exists sum'. split; [exact Ls|]. rewrite I1, I2, I3, I4, I5. unfold total. rewrite Nat2Z.id. exact Es. }
  destruct (seqf_last cs R (iSbs sb) B (iOff sb) (iSize sb) g' (iBlock sb) sb Sq) as (Lr & _). fold g in Lr. fold total in Lr.
  assert (LD : last g sb = dlast g) by (apply last_default). rewrite LD in Lr.
  assert (Fin : forall rd2, rdRef rd2 = R -> rdSbs rd2 = iSbs sb -> rdBundle rd2 = B -> rdOff rd2 = iOff sb -> rdSize rd2 = iSize sb -> rdBlock rd2 = iBlock sb ->
    mkRef (rdRef rd2) (rdSbs rd2) (rdBundle rd2) (rdOff rd2) (rdSize rd2) (u64 (rdBlock rd2 + total)) = rdOf (dlast g)).
  { intros rd2 -> -> -> -> -> ->. rewrite Lr. f_equal. apply u64_small. unfold total. lia. }
  destruct totFlag eqn:Tf.
  - assert (Ev : Z.lor (Z.shiftl (total - 1) 1 mod two32) (bit (0 <? gap) 1) = bit (0 <? gap) 1 + 2 ^ 1 * (total - 1)).
    { rewrite Z.mod_small by (rewrite Z.shiftl_mul_pow2 by lia; unfold two32, total; lia). rewrite Z.lor_comm. apply lor_shift; [lia|]. destruct (0 <? gap); cbn; lia. }
    rewrite Ev. destruct (wv (bit (0 <? gap) 1 + 2 ^ 1 * (total - 1))) as (t & Et & Tl & Tr); [unfold total; destruct (0 <? gap); cbn [bit]; lia|]. rewrite Et. cbn [bind].
    assert (B0 : Z.testbit (bit (0 <? gap) 1 + 2 ^ 1 * (total - 1)) 0 = (0 <? gap)) by (rewrite bit_low by lia; destruct (0 <? gap); reflexivity).
    assert (B1 : Z.shiftr (bit (0 <? gap) 1 + 2 ^ 1 * (total - 1)) 1 = total - 1) by (apply shift_high; [lia|destruct (0 <? gap); cbn; lia]).
    destruct (Z.ltb_spec 0 gap) as [Q|Q].
    + destruct (wv gap ltac:(lia)) as (c & Ec & Cl & Cr). rewrite Ec. cbn [bind]. eexists _, _. split; [reflexivity|]. split; [apply Fin; auto|]. split; [intros _; rewrite app_length; lia|]. split; [|exact RS].
      rewrite <- app_assoc, Tr. cbn [bind]. rewrite B0, Cr. cbn [bind]. rewrite B1, <- Eb. rewrite !u64_small by (unfold total; lia). do 2 f_equal. f_equal; lia.
    + eexists _, _. split; [reflexivity|]. split; [apply Fin; auto; lia|]. split; [intros _; lia|]. split; [|exact RS].
      rewrite Tr. cbn [bind]. rewrite B0. cbn [bind]. rewrite B1, <- Eb. rewrite u64_small by (unfold total; lia). do 2 f_equal. f_equal; lia.
  - unfold totFlag in Tf. apply orb_false_iff in Tf. destruct Tf as (Tf & T3). apply orb_false_iff in Tf. destruct Tf as (T1 & T2). apply negb_false_iff, Z.eqb_eq in T2, T3. specialize (Hc T1).
    eexists _, _. split; [reflexivity|]. split; [apply Fin; auto; lia|]. split; [congruence|]. split; [|exact RS]. rewrite T3, <- Eb. cbn [app]. do 2 f_equal. f_equal. lia.
Qed.

(** What is required of the super blocks of one reference. *)
Definition refOk (R B : Z) (gs : list (list item)) : Prop :=
  isRuns iOff gs /\ chain (concat gs) /\ Forall (itemOk cs) (concat gs) /\ forall y, In y (concat gs) -> iRef y = R /\ iBundle y = B.
Lemma refOk_step R B g gs : refOk R B (g :: gs) -> refOk R B gs.
Proof.
  intros (A1 & A2 & A3 & A4). cbn [concat] in *. split; [apply A1|]. split; [now apply chain_app in A2|]. split; [now apply Forall_app in A3|]. intros y Hy. apply A4, in_app_iff. now right.
Qed.
Lemma block_growth x g : chain (x :: g) -> (forall y, In y (x :: g) -> iOff y = iOff x) -> iBlock (last (x :: g) x) = iBlock x + Z.of_nat (length g).
Proof.
  revert x. induction g as [|y g IH]; intros x C O; [cbn; lia|]. destruct C as ((A & _) & C). assert (Oy : iOff y = iOff x) by (apply O; right; now left). destruct (A (eq_sym Oy)) as (_ & _ & A3).
  change (last (x :: y :: g) x) with (last (y :: g) x). rewrite (last_default y g x y). rewrite IH; [cbn [length]; lia|exact C|]. intros z Hz. rewrite Oy. apply O. now right.
Qed.
Lemma in_last {A} (x : A) l d : In (last (x :: l) d) (x :: l).
Proof. revert x. induction l as [|y l IH]; intros x; [now left|]. right. apply (IH y). Qed.
Lemma refOk_head R B g gs : refOk R B (g :: gs) -> exists sb g', g = sb :: g' /\ seqf cs R (iSbs sb) B (iOff sb) (iSize sb) (iBlock sb) g /\ itemOk cs sb /\ Z.of_nat (length g) <= 2 ^ 31 /\ iRef sb = R /\ iBundle sb = B /\
  (forall d, iSize (last g d) = iSize sb) /\ match gs with (y :: _) :: _ => iOff y = iOff sb + iSize sb | _ => True end.
Proof.
  intros (((x & g' & -> & K) & N & Rn) & C & F & RB). exists x, g'. split; [reflexivity|]. cbn [concat] in *.
  destruct (chain_app _ _ C) as (C1 & _). apply Forall_app in F. destruct F as (F & _).
  assert (RB' : forall y, In y (x :: g') -> iRef y = R /\ iBundle y = B) by (intros y Hy; apply RB, in_app_iff; now left).
  pose proof (chain_seqf cs R B x g' C1 K F RB') as Sq. split; [exact Sq|]. pose proof (Forall_inv F) as Fx. split; [exact Fx|].
  split.
  { pose proof (block_growth x g' C1 K) as Gr. rewrite Forall_forall in F. destruct (F _ (in_last x g' x)) as (_ & _ & _ & _ & _ & _ & Bl & _). destruct Fx as (_ & _ & _ & _ & _ & _ & Bx & _). rewrite Gr in Bl. cbn [length]. lia. }
  destruct (RB' x (or_introl eq_refl)) as (E1 & E2). split; [exact E1|]. split; [exact E2|].
  assert (Sz : forall d, iSize (last (x :: g') d) = iSize x) by (intros d; rewrite (last_default x g' d x); exact (proj2 (seqf_last _ _ _ _ _ _ _ _ _ Sq))). split; [exact Sz|].
  destruct gs as [|[|y t] gs]; auto. cbn [concat] in C. pose proof (N _ (in_last x g' x)) as Ne. cbn [app] in C.
  assert (A : adj (last (x :: g') x) y).
  { clear -C. revert x C. induction g' as [|z g' IH]; intros x C; [cbn in C; tauto|]. change (last (x :: z :: g') x) with (last (z :: g') x). rewrite (last_default z g' x z). apply IH. apply (chain_tl x). exact C. }
  destruct A as (_ & A). rewrite A by auto. rewrite (K _ (in_last x g' x)). now rewrite Sz.
Qed.

Lemma sbs_nc flags R B : forall gs, gs <> [] -> refOk R B gs -> forall rdw rdr it sizeLast (first : bool),
  rdRef rdw = R -> rdBundle rdw = B -> rdRef rdr = R -> rdBundle rdr = B -> rdSbs rdr = rdSbs rdw -> iRef it = R -> iBundle it = B -> iSbs it = rdSbs rdw -> length (iSum it) = cs -> 0 <= sizeLast < 2 ^ 60 ->
  iOff it = match gs with (y :: _) :: _ => iOff y | _ => 0 end -> (first = false -> rdOff rdr + sizeLast = iOff it) ->
  exists bytes, writeSbs bs flags R rdw sizeLast false gs = Ok (bytes, rdOf (dlast (concat gs)), iSize (dlast (concat gs))) /\ (length gs <= length bytes)%nat /\
    forall tail fuel refEnc, (length gs <= fuel)%nat -> readSbs fuel bs cs refEnc rdr it sizeLast false first (bytes ++ tail) = Ok (concat gs, rdOf (dlast (concat gs)), iSize (dlast (concat gs)), tail).
Proof.
  induction gs as [|g gs IH]; intros Hne Hok; [congruence|]. clear Hne. intros rdw rdr it sizeLast first W1 W2 R1 R2 R3 I1 I2 I3 I4 Sl Io Fo.
  destruct (refOk_head _ _ _ _ Hok) as (sb & g' & -> & Sq & Oi & Lt & E1 & E2 & Sz & Nx). pose proof Oi as (O1 & O2 & O3 & O4 & O5 & O6 & O7 & O8).
  cbn [writeSbs]. set (g := sb :: g') in *. set (lst := match gs with [] => true | _ => false end). set (total := Z.of_nat (length g)).
  set (totFlag := false || negb (iBlock sb =? 0) || negb (total =? sbBlocks bs (iSbs sb))). set (change := negb (iSbs sb =? rdSbs rdw)).
  set (sz := if sizeLast =? 0 then iSize sb else zigZag64 (i64 (i64 (iSize sb) - sizeLast))).
  assert (Hsz : 0 <= sz < 2 ^ 61 /\ (if sizeLast =? 0 then sz else u64 (unZigZag64 sz + sizeLast)) = iSize sb).
  { unfold sz. destruct (sizeLast =? 0); [lia|]. rewrite (i64_small (iSize sb)) by lia. rewrite i64_signed by lia. rewrite zigZag64_spec by (unfold two63; lia).
    assert (Rg : 0 <= zz (iSize sb - sizeLast) < 2 ^ 61) by (pose proof (zz_range (2 ^ 60) (iSize sb - sizeLast) ltac:(lia)); lia). split; [exact Rg|].
    rewrite unZigZag64_spec by (unfold isU64, two64; lia). rewrite unzz_zz. rewrite u64_small by lia. lia. }
  destruct Hsz as (Hsz & Hsz2). rewrite lor_flags. rewrite (u64_small (Z.shiftl sz 3)) by (rewrite Z.shiftl_mul_pow2 by lia; lia). assert (BB : forall a b c, 0 <= bit a 1 + bit b 4 + bit c 2 < 2 ^ 3) by (intros [] [] []; cbn; lia). rewrite lor_shift; [|lia|apply BB].
  set (e := bit lst 1 + bit totFlag 4 + bit change 2 + 2 ^ 3 * sz). destruct (tb lst totFlag change sz) as (T0 & T2 & T1 & T3). fold e in T0, T1, T2, T3.
  destruct (wv e) as (t & Et & Tl & Tr); [pose proof (BB lst totFlag change); unfold e; lia|]. rewrite Et. cbn [bind].
  set (rd' := mkRef (rdRef rdw) (iSbs sb) (rdBundle rdw) (iOff sb) (iSize sb) 0).
  (* super block size *)
  assert (Sb : exists cd, (if change then let* c := wVar (Z.lor (Z.shiftl (iSbs sb / bs) 1) (bit (negb (iSbs sb mod bs =? 0)) 1)) in
             let* d := if negb (iSbs sb mod bs =? 0) then wVar (iSbs sb mod bs) else Ok [] in Ok (t ++ c ++ d, rd') else Ok (t, rd')) = Ok (t ++ cd, rd') /\
     forall b, (if change then let* (x, b2) := rVar (cd ++ b) in let s := u64 (Z.shiftr x 1 * bs) in
              let* (s', b3) := if Z.testbit x 0 then let* (y, b4) := rVar b2 in Ok (u64 (s + y), b4) else Ok (s, b2) in Ok (s', s', b3)
            else Ok (iSbs it, rdSbs rdr, cd ++ b)) = Ok (iSbs sb, iSbs sb, b)).
  { destruct change eqn:Ch.
    - set (rem := negb (iSbs sb mod bs =? 0)). pose proof (Z.div_pos (iSbs sb) bs ltac:(lia) ltac:(lia)) as Dp. pose proof (Z.div_mod (iSbs sb) bs ltac:(lia)) as Dm. pose proof (Z.mod_pos_bound (iSbs sb) bs ltac:(lia)) as Mb.
      assert (Dl : iSbs sb / bs <= iSbs sb) by (apply Z.div_le_upper_bound; nia).
      assert (B1 : forall b, 0 <= bit b 1 < 2 ^ 1) by (intros []; cbn; lia). rewrite Z.lor_comm, lor_shift; [|lia|apply B1]. destruct (wv (bit rem 1 + 2 ^ 1 * (iSbs sb / bs))) as (c & Ec & _ & Cr); [pose proof (B1 rem); lia|]. rewrite Ec. cbn [bind].
      assert (X0 : Z.testbit (bit rem 1 + 2 ^ 1 * (iSbs sb / bs)) 0 = rem) by (rewrite bit_low by lia; clear; now destruct rem).
      assert (X1 : Z.shiftr (bit rem 1 + 2 ^ 1 * (iSbs sb / bs)) 1 = iSbs sb / bs) by (apply shift_high; [lia|apply B1]).
      assert (Um : u64 (iSbs sb / bs * bs) = iSbs sb - iSbs sb mod bs) by (rewrite u64_small; nia).
      destruct rem eqn:Re.
      + destruct (wv (iSbs sb mod bs)) as (d & Ed & _ & Dr); [lia|]. rewrite Ed. cbn [bind]. exists (c ++ d). split; [reflexivity|]. intros b. rewrite <- app_assoc, Cr. cbn [bind]. rewrite X0, X1, Um, Dr. cbn [bind].
        rewrite u64_small by lia. replace (iSbs sb - iSbs sb mod bs + iSbs sb mod bs) with (iSbs sb) by ring. reflexivity.
      + cbn [bind]. exists (c ++ []). split; [reflexivity|]. intros b. rewrite app_nil_r, Cr. cbn [bind]. rewrite X0, X1, Um. cbn [bind]. unfold rem in Re. apply negb_false_iff, Z.eqb_eq in Re. rewrite Re, Z.sub_0_r. reflexivity.
    - exists []. rewrite app_nil_r. split; [reflexivity|]. intros b. unfold change in Ch. apply negb_false_iff, Z.eqb_eq in Ch. cbn [app]. rewrite I3, R3, <- Ch. reflexivity. }
  destruct Sb as (cd & Ew & Er). rewrite Ew. cbn [bind].
  set (itr := mkItem (iRef it) (iSbs sb) (iBundle it) (iOff it) (iSize sb) (iBlock it) (iSum it)).
  assert (TS := fun rdr' tail H => total_sim false rd' rdr' sb g' tail itr R B Sq Oi Lt H). cbv zeta in TS. fold g in TS. fold total in TS. fold totFlag in TS.
  assert (ZB : 0 <= rdBlock rd' <= iBlock sb) by (cbn; lia).
  set (rdr' := mkRef (rdRef rdr) (iSbs sb) (rdBundle rdr) (iOff sb) (iSize sb) 0).
  assert (TS' := fun tail => TS rdr' tail eq_refl ZB (fun _ => eq_refl) W1 eq_refl W2 eq_refl eq_refl I1 eq_refl I2 Io eq_refl I4). clear TS.
  destruct (TS' []) as (b2 & rd2 & Ew2 & Erd & _ & _). rewrite Ew2. cbn [bind]. rewrite Erd. rewrite (i64_small (iSize sb)) by lia.
  assert (Rd0 : forall tail, exists sum', length sum' = cs /\
     (if totFlag then let* (x, b) := rVar (b2 ++ concat (map iSum g) ++ tail) in
          let* (block, b') := if Z.testbit x 0 then let* (y, b3) := rVar b in Ok (u64 (rdBlock rdr' + y), b3) else Ok (rdBlock rdr', b) in
          Ok (u64 (Z.shiftr x 1 + 1), block, b')
      else Ok (sbBlocks bs (iSbs sb), rdBlock rdr', b2 ++ concat (map iSum g) ++ tail)) = Ok (total, iBlock sb, concat (map iSum g) ++ tail) /\
     readSums (Z.to_nat total) cs (mkItem (iRef itr) (iSbs itr) (iBundle itr) (iOff itr) (iSize itr) (iBlock sb) (iSum itr)) (concat (map iSum g) ++ tail) = (g, sum', tail)).
  { intros tail. destruct (TS' tail) as (b2' & rd2' & Ew2' & _ & _ & Rx & sum' & Ls & Es). rewrite Ew2 in Ew2'. injection Ew2' as <- <-. eauto. }
  assert (Rrd : mkRef (rdRef rdr') (rdSbs rdr') (rdBundle rdr') (rdOff rdr') (rdSize rdr') (u64 (iBlock sb + total)) = rdOf (dlast g)).
  { destruct (seqf_last cs R (iSbs sb) B (iOff sb) (iSize sb) g' (iBlock sb) sb Sq) as (Lr & _). rewrite (last_default sb g' sb (mkItem 0 0 0 0 0 0 [])) in Lr. fold (dlast (sb :: g')) in Lr. fold g in Lr. rewrite Lr. unfold rdr'. cbn [rdRef rdSbs rdBundle rdOff rdSize]. rewrite R1, R2. fold total. rewrite u64_small by (unfold total; lia). reflexivity. }
  assert (Rsz : iSize (dlast g) = iSize sb) by apply Sz.
  assert (RD : forall tail fuel refEnc, exists sum', length sum' = cs /\
     readSbs (S fuel) bs cs refEnc rdr it sizeLast false first ((t ++ cd) ++ b2 ++ concat (map iSum g) ++ tail) =
     if lst then Ok (g, rdOf (dlast g), iSize sb, tail)
     else let* (l', rd', sl, buf') := readSbs fuel bs cs refEnc (rdOf (dlast g)) (mkItem R (iSbs sb) B (iOff sb + iSize sb) (iSize sb) (iBlock sb) sum') (iSize sb) false false tail in Ok (g ++ l', rd', sl, buf')).
  { intros tail fuel refEnc. destruct (Rd0 tail) as (sum' & Ls & Et2 & Es). exists sum'. split; [exact Ls|]. cbn [readSbs]. rewrite <- !app_assoc, Tr. cbn [bind]. rewrite T3, Hsz2, T1, Er. cbn [bind iSize iSbs].
    assert (Q : mkRef (rdRef rdr) (iSbs sb) (rdBundle rdr) (if first then iOff it else u64 (rdOff rdr + u64 sizeLast)) (iSize sb) 0 = rdr').
    { unfold rdr'. f_equal. rewrite Io. destruct first; [reflexivity|]. rewrite (u64_small sizeLast) by lia. rewrite (Fo eq_refl), Io. apply u64_small. lia. }
    rewrite Q, T2, Et2. cbn [bind iRef iSbs iBundle iOff iSize iBlock iSum]. change (mkItem (iRef it) (iSbs sb) (iBundle it) (iOff it) (iSize sb) (iBlock sb) (iSum it)) with (mkItem (iRef itr) (iSbs itr) (iBundle itr) (iOff itr) (iSize itr) (iBlock sb) (iSum itr)).
    rewrite Es, T0, Rrd. rewrite (i64_small (iSize sb)) by lia. rewrite I1, I2, Io. rewrite (u64_small (iOff sb + iSize sb)) by lia. reflexivity. }
  destruct gs as [|g2 gs].
  - cbn [writeSbs bind concat]. rewrite !app_nil_r, Rsz. eexists. split; [reflexivity|]. split; [cbn [length]; rewrite !app_length; lia|]. intros tail fuel refEnc Hf. destruct fuel as [|fuel]; [cbn in Hf; lia|].
    destruct (RD tail fuel refEnc) as (? & _ & E). rewrite <- !app_assoc in *. rewrite E. reflexivity.
  - pose proof (refOk_step _ _ _ _ Hok) as Hok'. destruct (refOk_head _ _ _ _ Hok') as (sb2 & g2' & -> & _).
    destruct (IH ltac:(discriminate) Hok' (rdOf (dlast g)) (rdOf (dlast g)) (mkItem R (iSbs sb) B (iOff sb + iSize sb) (iSize sb) (iBlock sb) (repeat 0 cs)) (iSize sb) false) as (b3 & Ew3 & L3 & _);
      try reflexivity; try (rewrite <- Rrd; cbn; auto; fail); try (cbn; lia); try (apply repeat_length); [now rewrite <- Rrd; cbn; rewrite Nx..|].
    rewrite Ew3. cbn [bind]. assert (DL : dlast (concat (g :: (sb2 :: g2') :: gs)) = dlast (concat ((sb2 :: g2') :: gs))) by (unfold dlast; cbn [concat app]; apply last_app2).
    rewrite DL. eexists. split; [reflexivity|]. split; [cbn [length] in *; rewrite !app_length; lia|]. intros tail fuel refEnc Hf. destruct fuel as [|fuel]; [cbn in Hf; lia|].
    destruct (RD (b3 ++ tail) fuel refEnc) as (sum' & Ls & E). rewrite <- !app_assoc in *. rewrite E. unfold lst.
    destruct (IH ltac:(discriminate) Hok' (rdOf (dlast g)) (rdOf (dlast g)) (mkItem R (iSbs sb) B (iOff sb + iSize sb) (iSize sb) (iBlock sb) sum') (iSize sb) false) as (b3' & Ew3' & _ & Er3);
      try reflexivity; try (rewrite <- Rrd; cbn; auto; fail); try (cbn; lia); try exact Ls; [now rewrite <- Rrd; cbn; rewrite Nx..|].
    rewrite Ew3 in Ew3'. injection Ew3' as <-. rewrite Er3; [reflexivity|]. clear -Hf. cbn [length] in *. lia.
Qed.
End Read.
