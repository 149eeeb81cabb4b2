(** Groups of options *)
From Coq Require Import Lia Sorting.Sorted.
From Verif Require Import Base Str OptNameModel OptLoadModel OptLoadProof OptGroupModel OptGroupSpec.
Open Scope Z_scope.
Open Scope list_scope.

(** * Keys *)
Lemma usedKeys_in f n : forall k x, In x (usedKeys f n k) <-> k <= x < k + Z.of_nat n /\ f x = true.
Proof.
  induction n as [|n IH]; intros k x; cbn [usedKeys]; [split; [intros []|lia]|]. rewrite in_app_iff, IH. destruct (f k) eqn:E; cbn [In].
  - split; [intros [[<-|[]]|[H1 H2]]; [split; [lia|exact E]|split; [lia|exact H2]]|]. intros [H1 H2]. destruct (Z.eq_dec k x) as [->|N]; [left; left; reflexivity|right; split; [lia|exact H2]].
  - split; [intros [[]|[H1 H2]]; split; [lia|exact H2]|]. intros [H1 H2]. destruct (Z.eq_dec k x) as [->|N]; [congruence|right; split; [lia|exact H2]].
Qed.
Lemma usedKeys_sorted f n : forall k, StronglySorted Z.lt (usedKeys f n k).
Proof.
  induction n as [|n IH]; intros k; cbn [usedKeys]; [constructor|]. destruct (f k); cbn [app]; [|apply IH]. constructor; [apply IH|].
  apply Forall_forall. intros x Hx. apply usedKeys_in in Hx. lia.
Qed.
Lemma writeKeys_ok size keys : forall map, (length map + length keys <= size)%nat -> writeKeys size keys map = Ok (map ++ keys).
Proof.
  induction keys as [|k keys IH]; intros map H; cbn [writeKeys]; [rewrite app_nil_r; reflexivity|]. cbn [length] in H.
  replace (length map <? size)%nat with true by (symmetry; apply Nat.ltb_lt; lia). rewrite IH by (rewrite app_length; cbn [length]; lia). rewrite <- app_assoc. reflexivity.
Qed.

Theorem indexMap_ok pg f : exists map, indexMap pg f = Ok map /\ keysOf pg (fun k => f k = true) map /\ (1 <= length map)%nat.
Proof.
  unfold indexMap. set (u := usedKeys f 256 0). set (w := usedKeys f 255 1).
  assert (UW : u = (if f 0 then [0] else []) ++ w) by reflexivity.
  assert (U : forall x, In x u <-> 0 <= x < 256 /\ f x = true) by (intros x; unfold u; rewrite usedKeys_in; reflexivity).
  assert (W : forall x, In x w <-> 1 <= x < 256 /\ f x = true) by (intros x; unfold w; rewrite usedKeys_in; reflexivity).
  assert (SU : StronglySorted Z.lt u) by apply usedKeys_sorted. assert (SW : StronglySorted Z.lt w) by apply usedKeys_sorted. clearbody u w. cbv zeta.
  destruct (Nat.ltb_spec 0 (length u)) as [L|L].
  - assert (E : length u = ((if f 0%Z then 1 else 0) + length w)%nat) by (rewrite UW at 1; rewrite app_length; destruct (f 0); reflexivity).
    destruct pg; cbn [andb].
    + assert (S0 : (if negb (f 0) then S (length u) else length u) = S (length w)) by (rewrite E; destruct (f 0); cbn; lia). rewrite S0. cbn [Nat.eqb].
      rewrite writeKeys_ok by (cbn [length]; lia). cbn [bind app]. rewrite writeKeys_ok by (cbn [length]; lia). cbn [app]. exists (0 :: w). split; [reflexivity|]. split; [|cbn [length]; lia]. split.
      * constructor; [exact SW|]. apply Forall_forall. intros x Hx. apply W in Hx. lia.
      * intros k. cbn [In]. rewrite W. split.
        -- intros [<-|[H1 H2]]; [right; split; [reflexivity|left; reflexivity]|left; split; [lia|exact H2]].
        -- intros [[H1 H2]|[-> _]]; [|left; reflexivity]. destruct (Z.eq_dec k 0) as [->|N]; [left; reflexivity|right; split; [lia|exact H2]].
    + replace (length u =? 0)%nat with false by (symmetry; apply Nat.eqb_neq; lia). rewrite writeKeys_ok by (cbn [length]; lia). cbn [app]. exists u. split; [reflexivity|]. split; [|lia]. split; [exact SU|].
      intros k. rewrite U. split; [intros H; left; exact H|]. intros [H|(-> & [H|H])]; [exact H|discriminate|].
      destruct u as [|x u]; [cbn in L; lia|]. exfalso. destruct (proj1 (U x) (or_introl eq_refl)) as [H1 H2]. exact (H x H1 H2).
  - assert (u = []) as -> by (destruct u; [reflexivity|cbn in L; lia]). rewrite Bool.andb_false_r. cbn [andb length Nat.eqb]. cbn [writeKeys length Nat.ltb Nat.leb app]. exists [0]. split; [reflexivity|]. split; [|cbn; lia]. split; [repeat constructor|].
    intros k. cbn [In]. split.
    + intros [<-|[]]. right. split; [reflexivity|]. right. intros j Hj K. apply (U j). split; assumption.
    + intros [H|[-> _]]; [exfalso; exact (proj2 (U k) H)|left; reflexivity].
Qed.

Lemma usedIn_spec valid t g k l : forall i, usedIn valid l i t g k = true <-> exists j r v, nth_error l j = Some r /\ rGroup r = Some g /\ valid (i + j)%nat = true /\ getOpt t (i + j) k = Some v /\ pvReset v = false.
Proof.
  induction l as [|r l IH]; intros i; cbn [usedIn].
  - split; [discriminate|]. intros ([|j] & r & v & H & _); discriminate H.
  - rewrite Bool.orb_true_iff, IH. split.
    + intros [H|(j & r' & v & H1 & H2 & H3 & H4 & H5)].
      * apply Bool.andb_true_iff in H. destruct H as [H H3]. apply Bool.andb_true_iff in H. destruct H as [H1 H2]. unfold inGroup in H2. destruct (rGroup r) as [g'|] eqn:G; [|discriminate]. apply Nat.eqb_eq in H2. subst g'.
        destruct (getOpt t i k) as [v|] eqn:E; [|discriminate]. exists 0%nat, r, v. rewrite Nat.add_0_r. repeat split; try assumption. destruct (pvReset v); [discriminate|reflexivity].
      * exists (S j), r', v. rewrite <- plus_n_Sm. repeat split; assumption.
    + intros ([|j] & r' & v & H1 & H2 & H3 & H4 & H5).
      * left. injection H1 as <-. rewrite Nat.add_0_r in *. unfold inGroup. rewrite H3, H2, H4, H5, Nat.eqb_refl. reflexivity.
      * right. exists j, r', v. rewrite <- plus_n_Sm in *. repeat split; assumption.
Qed.
Lemma used_spec rules valid t g k : used rules valid t g k = true <-> keyUsed rules valid t g k.
Proof. unfold used. rewrite usedIn_spec. reflexivity. Qed.

(** * Removing indexes *)
Lemma forall2_impl {A B} (P Q : A -> B -> Prop) l l' : (forall a b, P a b -> Q a b) -> Forall2 P l l' -> Forall2 Q l l'.
Proof. intros H F. induction F; constructor; auto. Qed.

Section Compact.
Variable keep : nat -> bool.

Definition now {A} (n : nat) (l : list A) : list A := firstn n l ++ kept keep n (skipn n l).
Lemma kept_length {A B} (l : list A) : forall (l' : list B) n, length l = length l' -> length (kept keep n l) = length (kept keep n l').
Proof.
  induction l as [|a l IH]; intros l' n H; destruct l' as [|b l']; try discriminate H; [reflexivity|]. injection H as H. cbn [kept]. destruct (keep n); cbn [length]; rewrite (IH l' (S n) H); reflexivity.
Qed.
Lemma now_length {A B} (l : list A) (l' : list B) n : length l = length l' -> length (now n l) = length (now n l').
Proof. intros H. unfold now. rewrite !app_length, !firstn_length, H, (kept_length (skipn n l) (skipn n l')); [reflexivity|]. rewrite !skipn_length. lia. Qed.
Lemma now_all {A} (l : list A) : now (length l) l = l.
Proof. unfold now. rewrite firstn_all, skipn_all. apply app_nil_r. Qed.
Lemma now_step {A} (l : list A) n : (n < length l)%nat -> exists x, now (S n) l = firstn n l ++ x :: kept keep (S n) (skipn (S n) l) /\
  now n l = firstn n l ++ (if keep n then x :: kept keep (S n) (skipn (S n) l) else kept keep (S n) (skipn (S n) l)).
Proof.
  intros H. destruct (nth_error l n) as [x|] eqn:E; [|apply nth_error_None in E; lia]. exists x. destruct (nth_error_split l n E) as (a & b & -> & <-).
  assert (F0 : firstn (length a) (a ++ x :: b) = a) by (rewrite <- (Nat.add_0_r (length a)), firstn_app_2; apply app_nil_r).
  assert (F1 : firstn (S (length a)) (a ++ x :: b) = a ++ [x]) by (replace (S (length a)) with (length a + 1)%nat by lia; rewrite firstn_app_2; reflexivity).
  assert (S0 : skipn (length a) (a ++ x :: b) = x :: b) by (rewrite skipn_app, skipn_all, Nat.sub_diag; reflexivity).
  assert (S1 : skipn (S (length a)) (a ++ x :: b) = b) by (rewrite skipn_app, skipn_all2 by lia; replace (S (length a) - length a)%nat with 1%nat by lia; reflexivity).
  unfold now. rewrite F0, F1, S0, S1, <- app_assoc. cbn [kept app]. split; [reflexivity|]. destruct (keep (length a)); reflexivity.
Qed.
Lemma now_end {A} (l : list A) n : length (now n l) = 1%nat -> (1 <= n <= length l)%nat \/ n = 0%nat -> now n l = left keep l.
Proof.
  intros H [Hn| ->].
  - unfold now in H. rewrite app_length, firstn_length in H. assert (n = 1%nat) as -> by lia. unfold left. destruct l as [|a l]; [cbn in Hn; lia|]. cbn [now firstn skipn kept app length] in *.
    unfold now. cbn [firstn skipn app]. assert (K : kept keep 1 l = []) by (destruct (kept keep 1 l); [reflexivity|cbn in H; lia]). rewrite K. destruct (keep 0%nat); reflexivity.
  - unfold now in *. cbn [firstn skipn app] in *. unfold left. destruct (kept keep 0 l); [cbn in H; lia|reflexivity].
Qed.
Lemma remove_now {A} (l cur : list A) n : (n < length l)%nat -> keep n = false -> firstn (length (now (S n) l)) cur = now (S n) l ->
  let total := length (now (S n) l) in
  length (now n l) = (total - 1)%nat /\ firstn (total - 1) (if (n <? total - 1)%nat then removeAt n cur else cur) = now n l.
Proof.
  intros H K E. cbv zeta. destruct (now_step l n H) as (x & E1 & E2). rewrite K in E2. assert (L : length (firstn n l) = n) by (apply firstn_length_le; lia).
  set (P := firstn n l) in *. set (R := kept keep (S n) (skipn (S n) l)) in *. 
  assert (T : length (now (S n) l) = (n + S (length R))%nat) by (rewrite E1, app_length; cbn [length]; lia).
  split; [rewrite E2, app_length, T; lia|]. rewrite T in *. replace (n + S (length R) - 1)%nat with (n + length R)%nat by lia.
  rewrite <- (firstn_skipn (n + S (length R)) cur), E, E1. set (rest := skipn (n + S (length R)) cur). rewrite E2. destruct (Nat.ltb_spec n (n + length R)) as [Q|Q].
  - unfold removeAt. rewrite <- !app_assoc. cbn [app]. replace n with (length P + 0)%nat at 2 by lia. rewrite firstn_app_2. cbn [firstn]. rewrite app_nil_r.
    replace (S n) with (length P + 1)%nat by lia. rewrite skipn_app. rewrite (skipn_all2 P) by lia. replace (length P + 1 - length P)%nat with 1%nat by lia. cbn [skipn app].
    replace (n + length R)%nat with (length (P ++ R) + 0)%nat by (rewrite app_length; lia). rewrite app_assoc, firstn_app_2. cbn [firstn]. apply app_nil_r.
  - assert (R0 : R = []) by (destruct R; [reflexivity|cbn in Q; lia]). rewrite R0. cbn [length]. rewrite <- app_assoc. replace (n + 0)%nat with (length P + 0)%nat by lia. rewrite firstn_app_2. cbn [firstn]. reflexivity.
Qed.

Lemma compact_ok {A} n : forall (m0 m : list Z) (a0 a : list (list A)) total, (n <= length m0)%nat -> (1 <= length m0)%nat -> (1 <= total)%nat ->
  total = length (now n m0) -> firstn total m = now n m0 -> Forall2 (fun l0 l => length l0 = length m0 /\ firstn total l = now n l0) a0 a ->
  let '(total', m', a') := compact keep n total m a in
  total' = length (left keep m0) /\ firstn total' m' = left keep m0 /\ Forall2 (fun l0 l => firstn total' l = left keep l0) a0 a'.
Proof.
  assert (DONE : forall (B : Type) (m0 : list Z) (l0 : list B) k total, length l0 = length m0 -> total = length (now k m0) -> (1 <= total)%nat -> (k = 0%nat \/ total = 1%nat /\ (1 <= k <= length m0)%nat) -> now k l0 = left keep l0).
  { intros B m0 l0 k total HL HT H1 [-> |[-> Hk]].
    - unfold now, left. cbn [firstn skipn app]. assert (K : length (now 0 l0) = total) by (rewrite (now_length l0 m0 0 HL); congruence). unfold now in K. cbn [firstn skipn app] in K.
      destruct (kept keep 0 l0) as [|x r]; [cbn in K; lia|reflexivity].
    - apply now_end; [rewrite (now_length l0 m0 k HL); congruence|left; lia]. }
  induction n as [|n IH]; intros m0 m a0 a total Hn Hm Ht HT M F; cbn [compact].
  - assert (E : now 0 m0 = left keep m0) by (apply (DONE Z m0 m0 0%nat total eq_refl HT Ht); left; reflexivity). split; [congruence|]. split; [congruence|].
    eapply forall2_impl; [|exact F]. intros l0 l [Q1 Q2]. cbn beta in *. rewrite Q2. apply (DONE A m0 l0 0%nat total Q1 HT Ht). left. reflexivity.
  - destruct (Nat.eqb_spec total 1) as [T1|T1].
    + assert (C : S n = 0%nat \/ total = 1%nat /\ (1 <= S n <= length m0)%nat) by (right; split; [exact T1|lia]).
      assert (E : now (S n) m0 = left keep m0) by (apply (DONE Z m0 m0 (S n) total eq_refl HT Ht C)). split; [congruence|]. split; [congruence|].
      eapply forall2_impl; [|exact F]. intros l0 l [Q1 Q2]. cbn beta in *. rewrite Q2. apply (DONE A m0 l0 (S n) total Q1 HT Ht C).
    + destruct (keep n) eqn:K.
      * assert (SAME : forall (B : Type) (l0 : list B), length l0 = length m0 -> now n l0 = now (S n) l0) by (intros B l0 HL; destruct (now_step l0 n ltac:(lia)) as (x & E1 & E2); rewrite K in E2; congruence).
        apply (IH m0 m a0 a total); [lia|exact Hm|exact Ht|rewrite (SAME Z m0 eq_refl); exact HT|rewrite (SAME Z m0 eq_refl); exact M|].
        eapply forall2_impl; [|exact F]. intros l0 l [Q1 Q2]. cbn beta in *. split; [exact Q1|]. rewrite (SAME A l0 Q1). exact Q2.
      * rewrite HT in M. destruct (remove_now m0 m n ltac:(lia) K M) as [R1 R2]. rewrite <- HT in R1, R2.
        refine (IH m0 _ a0 _ (total - 1)%nat ltac:(lia) Hm ltac:(lia) (eq_sym R1) R2 _).
        rewrite HT in F. destruct (n <? total - 1)%nat eqn:LT.
        -- clear - F K Hn HT LT. induction F as [|l0 l a0 a [Q1 Q2] F IHF]; cbn [List.map]; constructor; [|exact IHF]. split; [exact Q1|].
           rewrite (now_length m0 l0 (S n) (eq_sym Q1)) in *. destruct (remove_now l0 l n ltac:(lia) K Q2) as [_ R]. rewrite <- HT, LT in R. exact R.
        -- clear - F K Hn HT LT. induction F as [|l0 l a0 a [Q1 Q2] F IHF]; constructor; [|exact IHF]. split; [exact Q1|].
           rewrite (now_length m0 l0 (S n) (eq_sym Q1)) in *. destruct (remove_now l0 l n ltac:(lia) K Q2) as [_ R]. rewrite <- HT, LT in R. exact R.
Qed.
End Compact.
Lemma findKey_spec map : forall n total k, match findKey n total map k with
  | Some i => exists j, i = (n + j)%nat /\ (j < total)%nat /\ nth_error map j = Some k
  | None => forall j, (j < total)%nat -> nth_error map j <> Some k
  end.
Proof.
  induction map as [|k' map IH]; intros n total k; [destruct total; cbn; intros [|j] _; discriminate|]. destruct total as [|total]; cbn [findKey]; [intros j Hj; lia|].
  destruct (Z.eqb_spec k' k) as [->|N]; [exists 0%nat; split; [lia|]; split; [lia|reflexivity]|]. specialize (IH (S n) total k). destruct (findKey (S n) total map k) as [i|].
  - destruct IH as (j & -> & Hj & E). exists (S j). split; [lia|]. split; [lia|exact E].
  - intros [|j] Hj; [cbn; congruence|]. cbn [nth_error]. apply IH. lia.
Qed.
