(** Proofs about finding WAL segments. *)
From Coq Require Import Permutation Sorting.
From Verif Require Import Base Str ConvertModel LsnModel LsnSpec SpoolModel PushModel PushSpec PushProof WaitModel WaitSpec WaitProof FindModel FindSpec.
Open Scope Z_scope.

Lemma match_is seg x : seg24 seg -> segmentMatch seg x = true <-> fileOf seg x.
Proof. intros S. unfold fileOf. apply segmentMatch_spec. exists seg. auto. Qed.
Lemma file_prefix seg x : seg24 seg -> fileOf seg x -> firstn 25 x = seg ++ [45] /\ firstn 24 x = seg /\ exists r, x = seg ++ 45 :: r.
Proof.
  intros (L & _) (sum & _ & s & ext & S & _ & [(<- & ->)|(E & _)]).
  - split; [|split; [|eauto]].
    + rewrite firstn_app, L, firstn_all2 by lia. reflexivity.
    + rewrite firstn_app, L, firstn_all2 by lia. cbn. now rewrite app_nil_r.
  - exfalso. apply (f_equal (@length Z)) in E. rewrite app_length in E. destruct S. cbn in E. lia.
Qed.
Lemma between k a x c : sle a x -> sle x c -> firstn k a = firstn k c -> firstn k x = firstn k a.
Proof. intros H1 H2 E. apply (prefix_mono k) in H1, H2. rewrite <- E in H2. now apply sle_antisym. Qed.

(** ** dropWhile, countWhile *)
Lemma drop_split {A} p (l : list A) : exists pre, l = pre ++ dropWhile p l /\ Forall (fun x => p x = true) pre /\ match dropWhile p l with [] => True | a :: _ => p a = false end.
Proof.
  induction l as [|a r IH]; cbn [dropWhile]; [exists []; auto|]. destruct (p a) eqn:E.
  - destruct IH as (pre & E1 & F & H). exists (a :: pre). split; [cbn; now rewrite <- E1|]. split; [now constructor|exact H].
  - exists []. split; [reflexivity|]. split; [constructor|exact E].
Qed.
Lemma count_split {A} p (l : list A) : exists pre, l = pre ++ dropWhile p l /\ Forall (fun x => p x = true) pre /\ countWhile p l = length pre /\ match dropWhile p l with [] => True | a :: _ => p a = false end.
Proof.
  induction l as [|a r IH]; cbn [dropWhile countWhile]; [exists []; auto|]. destruct (p a) eqn:E.
  - destruct IH as (pre & E1 & F & C & H). exists (a :: pre). split; [cbn; now rewrite <- E1|]. split; [now constructor|]. split; [cbn; now rewrite C|exact H].
  - exists []. split; [reflexivity|]. split; [constructor|]. split; [reflexivity|exact E].
Qed.

(** ** One look at the list *)
Lemma check_many seg l r l' : checkList false seg l = (r, l') ->
  match r with
  | Ok (Some a) => exists p1 p2, l = p1 ++ a :: p2 /\ segmentMatch seg a = true /\ Forall (fun x => segmentMatch seg x = false) p1 /\ l' = match p2 with [] => None | _ => Some p2 end /\
      match p2 with [] => True | c :: _ => segmentMatch seg c = false end
  | Ok None => Forall (fun x => segmentMatch seg x = false) l /\ l' = None
  | Err e => e = EArchiveDuplicate /\ l' = None /\ exists p1 a b p2, l = p1 ++ a :: b :: p2 /\ segmentMatch seg a = true /\ segmentMatch seg b = true
  | UB => False
  end.
Proof.
  unfold checkList. destruct l as [|x l0]; [intros [= <- <-]; auto|]. set (l := x :: l0).
  destruct (drop_split (fun s => negb (segmentMatch seg s)) l) as (p1 & E1 & F1 & H1). set (l1 := dropWhile (fun s => negb (segmentMatch seg s)) l) in *.
  destruct (count_split (segmentMatch seg) l1) as (m & E2 & F2 & C2 & H2). rewrite C2. set (l2 := dropWhile (segmentMatch seg) l1) in *.
  assert (F1' : Forall (fun x => segmentMatch seg x = false) p1) by (eapply Forall_impl; [|exact F1]; cbn; intros a Ha; now apply negb_true_iff).
  destruct m as [|a [|b m]]; cbn [length Nat.ltb Nat.leb Nat.eqb].
  - intros [= <- <-]. destruct l1 as [|c l1'] eqn:EL.
    + cbn in l2. subst l2. rewrite app_nil_r in E1. rewrite E1. auto.
    + exfalso. cbn [app] in E2. rewrite <- E2 in H2. apply negb_false_iff in H1. congruence.
  - rewrite E2. cbn [app]. intros [= <- <-]. inversion F2; subst. exists p1, l2. split; [rewrite E1, E2; reflexivity|]. split; [assumption|]. split; [exact F1'|]. split; [now destruct l2|exact H2].
  - intros [= <- <-]. split; [reflexivity|]. split; [reflexivity|]. inversion F2 as [|? ? Ga F3]; subst. inversion F3; subst. exists p1, a, b, (m ++ l2). split; [rewrite E1, E2; reflexivity|auto].
Qed.
Lemma check_single seg l r l' : checkList true seg l = (r, l') -> l' = None /\
  match r with
  | Ok (Some a) => l = [a]
  | Ok None => l = []
  | Err e => e = EArchiveDuplicate /\ exists a b p, l = a :: b :: p
  | UB => False
  end.
Proof.
  unfold checkList. destruct l as [|a [|b p]]; cbn [length Nat.ltb Nat.leb Nat.eqb]; intros [= <- <-]; split; auto. split; [reflexivity|]. eauto.
Qed.

Section Find.
Variable dir : nat -> str -> list str.
Variable now : nat -> Z.

(** The list that is kept is the rest of what a directory had, after the files up to the last segment *)
Definition kept (f : finder) (n : nat) (last : str) : Prop :=
  match fdList f, fdPrefix f with
  | Some l, Some p => fdSingle f = false /\ exists j pre, (j < n)%nat /\ strLstSortAsc (dir j p) = pre ++ l /\ Forall (fun x => sle (firstn 24 x) last) pre
  | Some _, None => False
  | None, _ => True
  end.

(** What a result says *)
Definition outcome (seg : str) (single : bool) (n0 n : nat) (r : res (option str)) : Prop :=
  let d j := dir j (firstn 16 seg) in
  match r with
  | Ok (Some a) => exists j, (j < n)%nat /\ fileOf seg a /\ In a (d j) /\ (single = true \/ clean (d j) seg -> oneFile (d j) seg a)
  | Ok None => True
  | Err e => e = EArchiveDuplicate /\ exists j, (j < n)%nat /\ twoFiles (d j) seg
  | UB => True
  end.

Lemma sorted_uncons (l1 l2 : list str) a : StronglySorted sle (l1 ++ a :: l2) -> Forall (sle a) l2 /\ Forall (fun x => sle x a) l1.
Proof.
  intros S. apply StronglySorted_app_inv in S. destruct S as (S1 & S2 & S3). inversion S2; subst. split; [assumption|]. rewrite Forall_forall. intros x Hx. apply S3; [exact Hx|now left].
Qed.

Lemma look f seg n last l n' r l' : seg24 seg -> kept f n last -> fdList f = None \/ slt last seg -> getList dir f seg n = (l, n') -> checkList (fdSingle f) seg l = (r, l') ->
  outcome seg (fdSingle f) n n' r /\ kept (mkFinder (fdSingle f) (fdTimeout f) (Some (firstn 16 seg)) l') n' seg /\ (n <= n')%nat /\ r <> UB /\
  (r = Ok None -> l' = None /\ (fdList f = None -> n' = S n /\ noFile (dir n (firstn 16 seg)) seg)).
Proof.
  intros Sg K Lt G C. set (p := firstn 16 seg) in *.
  destruct (fdSingle f) eqn:Si.
  - (* single: always listed *)
    assert (E : l = strLstSortAsc (filter (segmentMatch seg) (dir n p)) /\ n' = S n).
    { unfold getList in G. rewrite Si in G. unfold kept in K. destruct (fdList f) as [l0|]; [|destruct (fdPrefix f); injection G as <- <-; auto].
      destruct (fdPrefix f); [destruct K as (K & _); congruence|destruct K]. }
    destruct E as (E & ->). assert (In' : forall x, In x l <-> In x (dir n p) /\ fileOf seg x).
    { intros x. rewrite E, strLstSortAsc_in, filter_In, match_is by exact Sg. reflexivity. }
    destruct (check_single _ _ _ _ C) as (-> & R). split; [|split; [cbn; exact I|split; [lia|split; [now destruct r|]]]].
    + unfold outcome. fold p. destruct r as [[a|]|e|]; auto.
      * exists n. split; [lia|]. subst l. destruct (proj1 (In' a)) as (I1 & I2); [rewrite R; now left|]. split; [exact I2|]. split; [exact I1|]. intros _. split; [exact I2|]. split; [exact I1|].
        intros x Hx Fx. assert (In x [a]) as [->|[]] by (rewrite <- R; apply In'; auto). reflexivity.
      * destruct R as (-> & a & b & q & R). split; [reflexivity|]. exists n. split; [lia|].
        assert (P : Permutation (filter (segmentMatch seg) (dir n p)) (a :: b :: q)) by (rewrite <- R, E; apply Permutation_sym, sortBy_perm).
        assert (Q : forall (g : str -> bool) d, Permutation d (filter g d ++ filter (fun x => negb (g x)) d)).
        { intros g d. induction d as [|y d IH]; [reflexivity|]. cbn [filter]. destruct (g y); cbn [negb app]; [now constructor|]. apply Permutation_cons_app. exact IH. }
        exists a, b, (q ++ filter (fun x => negb (segmentMatch seg x)) (dir n p)). split.
        { rewrite (Q (segmentMatch seg) (dir n p)) at 1. rewrite P. reflexivity. }
        split; apply In'; rewrite R; [now left|right; now left].
    + intros ->. split; [reflexivity|]. intros _. split; [reflexivity|]. intros x Hx Fx. subst l. cbn in R. assert (In x []) as [] by (rewrite <- R; apply In'; auto).
  - (* several *)
    assert (J : exists j pre, (j < n')%nat /\ (n <= n')%nat /\ strLstSortAsc (dir j p) = pre ++ l /\ Forall (fun x => segmentMatch seg x = false /\ sle (firstn 24 x) seg) pre /\
                (fdList f = None -> j = n /\ n' = S n /\ pre = [])).
    { unfold getList in G. rewrite Si in G. unfold kept in K. destruct (fdList f) as [l0|].
      - destruct (fdPrefix f) as [p0|]; [|destruct K]. destruct K as (_ & j & pre & K1 & K2 & K3). fold p in G. destruct (strEqb p p0) eqn:Ep.
        + apply strEqb_eq in Ep. subst p0. injection G as <- <-. destruct Lt as [Lt|Lt]; [discriminate|]. exists j, pre. split; [exact K1|]. split; [lia|]. split; [exact K2|]. split; [|discriminate].
          eapply Forall_impl; [|exact K3]. cbv beta. intros x Hx. assert (S1 : slt (firstn 24 x) seg) by (eapply sle_slt_trans; eauto). split; [|now apply slt_le].
          destruct (segmentMatch seg x) eqn:M; [|reflexivity]. exfalso. apply match_is in M; [|exact Sg]. apply file_prefix in M; [|exact Sg]. destruct M as (_ & M & _). rewrite M in S1. now apply slt_irrefl in S1.
        + injection G as <- <-. exists n, []. split; [lia|]. split; [lia|]. split; [reflexivity|]. split; [constructor|discriminate].
      - assert (l = strLstSortAsc (dir n p) /\ n' = S n) as (-> & ->) by (fold p in G; destruct (fdPrefix f); injection G as <- <-; auto). exists n, []. split; [lia|]. split; [lia|]. split; [reflexivity|]. split; [constructor|auto]. }
    destruct J as (j & pre & J1 & J2 & J3 & J4 & J5). pose proof (strLstSortAsc_sorted (dir j p)) as St. rewrite J3 in St.
    assert (In' : forall x, In x (dir j p) <-> In x pre \/ In x l) by (intros x; rewrite <- strLstSortAsc_in, J3, in_app_iff; reflexivity).
    assert (Hc := check_many _ _ _ _ C). destruct r as [[a|]|e|].
    + destruct Hc as (p1 & p2 & E & M & F1 & -> & H2). pose proof (proj1 (match_is seg a Sg) M) as Fa. destruct (file_prefix _ _ Sg Fa) as (X1 & X2 & _).
      assert (St2 : StronglySorted sle ((pre ++ p1) ++ a :: p2)) by (rewrite <- app_assoc, <- E; exact St). destruct (sorted_uncons _ _ _ St2) as (Q1 & Q2).
      assert (Ia : In a (dir j p)) by (apply In'; right; rewrite E; apply in_elt).
      split; [|split; [|split; [exact J2|split; [discriminate|discriminate]]]].
      * unfold outcome. fold p. exists j. split; [exact J1|]. split; [exact Fa|]. split; [exact Ia|]. intros [Cl|Cl]; [discriminate|]. split; [exact Fa|]. split; [exact Ia|].
        intros x Hx Fx. pose proof (proj2 (match_is seg x Sg) Fx) as Mx. apply In' in Hx. destruct Hx as [Hx|Hx].
        { rewrite Forall_forall in J4. destruct (J4 x Hx). congruence. }
        rewrite E in Hx. apply in_app_iff in Hx. destruct Hx as [Hx|[Hx|Hx]]; [|now symmetry|].
        { rewrite Forall_forall in F1. rewrite (F1 x Hx) in Mx. discriminate. }
        exfalso. destruct p2 as [|c p2]; [destruct Hx|]. destruct Hx as [->|Hx]; [congruence|].
        assert (A1 : sle a c) by (inversion Q1; assumption).
        assert (A2 : sle c x). { apply StronglySorted_app_inv in St2. destruct St2 as (_ & St2 & _). inversion St2 as [|? ? St3 _]; subst. inversion St3 as [|? ? _ Hf]; subst. rewrite Forall_forall in Hf. now apply Hf. }
        destruct (file_prefix _ _ Sg Fx) as (Y1 & _). assert (B := between 25 a c x A1 A2 (eq_trans X1 (eq_sym Y1))). rewrite X1 in B.
        assert (Fc : fileOf seg c). { apply (Cl c (skipn 25 c)); [apply In'; right; rewrite E; apply in_app_iff; right; right; now left|]. rewrite <- (firstn_skipn 25 c) at 1. rewrite B, <- app_assoc. reflexivity. }
        apply match_is in Fc; [|exact Sg]. congruence.
      * unfold kept. cbn [fdList fdPrefix fdSingle]. destruct p2 as [|c p2]; [exact I|]. split; [reflexivity|]. exists j, (pre ++ p1 ++ [a]). split; [exact J1|].
        split; [rewrite J3, E, <- !app_assoc; reflexivity|]. apply Forall_app. split; [eapply Forall_impl; [|exact J4]; cbv beta; tauto|]. apply Forall_app.
        split; [|constructor; [rewrite X2; apply sle_refl|constructor]]. apply Forall_app in Q2. destruct Q2 as (_ & Q2). eapply Forall_impl; [|exact Q2]. cbv beta. intros x Hx.
        rewrite <- X2. now apply prefix_mono.
    + destruct Hc as (F & ->). split; [exact I|]. split; [exact I|]. split; [exact J2|]. split; [discriminate|]. intros _. split; [reflexivity|]. intros Nn. destruct (J5 Nn) as (-> & -> & ->). split; [reflexivity|].
      intros x Hx Fx. apply match_is in Fx; [|exact Sg]. apply In' in Hx. destruct Hx as [[]|Hx]. rewrite Forall_forall in F. rewrite (F x Hx) in Fx. discriminate.
    + destruct Hc as (-> & -> & p1 & a & b & p2 & E & Ma & Mb). split; [|split; [exact I|split; [exact J2|split; discriminate]]]. split; [reflexivity|]. fold p. exists j. split; [exact J1|].
      exists a, b, (pre ++ p1 ++ p2). split; [|split; apply match_is; assumption].
      assert (P : Permutation (dir j p) (pre ++ p1 ++ a :: b :: p2)) by (rewrite <- E, <- J3; apply Permutation_sym, sortBy_perm). rewrite P.
      rewrite !app_assoc. rewrite <- Permutation_middle. apply perm_skip. rewrite <- Permutation_middle. reflexivity.
    + destruct Hc.
Qed.

(** ** The rounds *)
Lemma loop fuel f w seg n last r f' n' : seg24 seg -> kept f n last -> fdList f = None \/ slt last seg -> findLoop dir now fuel f w seg n = (r, f', n') ->
  outcome seg (fdSingle f) n n' r /\ kept f' n' seg /\ (n <= n')%nat /\ fdSingle f' = fdSingle f /\ fdTimeout f' = fdTimeout f.
Proof.
  intros Sg. revert f w n last. induction fuel as [|fuel IH]; intros f w n last K Lt E; cbn [findLoop] in E.
  all: destruct (getList dir f seg n) as [l n1] eqn:G; destruct (checkList (fdSingle f) seg l) as [r1 l1] eqn:C; destruct (look f seg n last l n1 r1 l1 Sg K Lt G C) as (O1 & K1 & L1 & U1 & N1).
  all: destruct r1 as [[a|]|e|]; try (injection E as <- <- <-; repeat (split; [first [assumption|lia|reflexivity]|]); reflexivity).
  all: destruct (N1 eq_refl) as (-> & _); destruct (waitMore w (now n1)) as [[more s] w1]; destruct more.
  - injection E as <- <- <-. split; [exact I|]. split; [exact I|]. split; [lia|]. auto.
  - injection E as <- <- <-. split; [exact I|]. split; [exact I|]. split; [lia|]. auto.
  - eapply (IH _ _ _ seg) in E; [|exact I|now left]. destruct E as (E1 & E2 & E3 & E4 & E5). cbn [fdSingle fdTimeout] in *. split; [|split; [exact E2|split; [lia|auto]]].
    unfold outcome in *. destruct r as [[a|]|e|]; auto.
  - injection E as <- <- <-. split; [exact I|]. split; [exact I|]. split; [lia|]. auto.
Qed.

(** Not found: the last look was just before the clock said that the time is over *)
Lemma loop_none t b fuel f w seg n last f' n' : 0 <= t < 2 ^ 63 -> seg24 seg -> kept f n last -> fdList f = None \/ slt last seg -> inv t b w -> 0 < wSleep w -> fdList f = None \/ 0 < wRetry w ->
  findLoop dir now fuel f w seg n = (Ok None, f', n') ->
  exists j, n' = (j + 2)%nat /\ (n <= j)%nat /\ noFile (dir j (firstn 16 seg)) seg /\ t <= (now (S j) - b) mod two64.
Proof.
  intros T Sg. revert f w n last. induction fuel as [|fuel IH]; intros f w n last K Lt Iv Sl Fr E; cbn [findLoop] in E.
  all: destruct (getList dir f seg n) as [l n1] eqn:G; destruct (checkList (fdSingle f) seg l) as [r1 l1] eqn:C; destruct (look f seg n last l n1 r1 l1 Sg K Lt G C) as (O1 & K1 & L1 & U1 & N1).
  all: destruct r1 as [[a|]|e|]; try discriminate.
  all: destruct (N1 eq_refl) as (-> & N2); destruct (waitMore w (now n1)) as [[more s] w1] eqn:W; destruct (step t b T _ _ _ _ _ Iv W) as (I1 & B1 & B2 & _).
  all: destruct more; [try discriminate|].
  2:{ destruct (B2 eq_refl) as (Es & P). rewrite Es in P. eapply (IH _ _ _ seg) in E; [|exact I|now left|exact I1|exact P|now left]. destruct E as (j & E1 & E2 & E3). exists j. split; [exact E1|]. split; [lia|exact E3]. }
  all: assert (Q : ~ (elapsed b (now n1) < t \/ 0 < wRetry w)) by (intros Q; assert (false = true) by (apply B1; auto); discriminate).
  all: destruct Fr as [Fr|Fr]; [|exfalso; apply Q; now right].
  all: destruct (N2 Fr) as (-> & N3); injection E as <- <-; exists n; split; [lia|]; split; [lia|]; split; [exact N3|]; fold (elapsed b (now (S n))); lia.
Qed.

(** It ends if the clock goes on *)
Lemma loop_ends t b fuel f w seg n last r f' n' : 0 <= t < 2 ^ 63 -> seg24 seg -> kept f n last -> fdList f = None \/ slt last seg -> inv t b w -> (forall i, now i < now (S i)) -> b <= now n ->
  (forall i, now i - b < two64) -> Z.max 0 (t - (now n - b)) + wRetry w < Z.of_nat fuel + 1 -> findLoop dir now fuel f w seg n = (r, f', n') -> r <> UB.
Proof.
  intros T Sg K0 Lt0 Iv0 Mono Bn0 Small. revert f w n last K0 Lt0 Iv0 Bn0. induction fuel as [|fuel IH]; intros f w n last K Lt Iv Bn M E; cbn [findLoop] in E.
  all: destruct (getList dir f seg n) as [l n1] eqn:G; destruct (checkList (fdSingle f) seg l) as [r1 l1] eqn:C; destruct (look f seg n last l n1 r1 l1 Sg K Lt G C) as (O1 & K1 & L1 & U1 & N1).
  all: destruct r1 as [[a|]|e|]; [injection E as <- <- <-; discriminate| |injection E as <- <- <-; discriminate|congruence].
  all: destruct (N1 eq_refl) as (-> & N2); destruct (waitMore w (now n1)) as [[more s] w1] eqn:W; destruct (step t b T _ _ _ _ _ Iv W) as (I1 & B1 & B2 & _ & _ & B5 & _).
  all: assert (Mn : now n <= now n1) by (clear - Mono L1; induction L1 as [|m L1 IHm]; [lia|]; pose proof (Mono m); lia).
  all: assert (EL : elapsed b (now n1) = now n1 - b) by (apply elapsed_is; pose proof (Small n1); lia); pose proof (Mono n1) as Mn1.
  all: destruct more; [|injection E as <- <- <-; discriminate].
  - exfalso. destruct (proj1 B1 eq_refl) as (_ & Q). rewrite EL in Q. destruct Iv as (_ & _ & _ & _ & Iv5). lia.
  - refine (IH _ _ _ seg _ _ I1 _ _ E); [exact I|now left|lia|]. rewrite (B5 eq_refl). destruct (proj1 B1 eq_refl) as (_ & Q). rewrite EL in Q. destruct Iv as (_ & _ & _ & _ & Iv5). lia.
Qed.

(** ** One segment *)
Lemma first_pos t : 10 <= t -> 0 < firstSleep t.
Proof. intros T. unfold firstSleep. destruct (1000 <=? t); [lia|]. apply Z.div_str_pos. lia. Qed.
Lemma find_one fuel f seg n last r f' n' : seg24 seg -> kept f n last -> fdList f = None \/ slt last seg -> 10 <= fdTimeout f < 2 ^ 63 -> walSegmentFind dir now fuel f seg n = (r, f', n') ->
  kept f' n' seg /\ (n <= n')%nat /\ fdSingle f' = fdSingle f /\ fdTimeout f' = fdTimeout f /\
  match r with
  | Ok (Some a) => exists j, (j < n')%nat /\ fileOf seg a /\ In a (dir j (firstn 16 seg)) /\ (fdSingle f = true \/ clean (dir j (firstn 16 seg)) seg -> oneFile (dir j (firstn 16 seg)) seg a)
  | Ok None => False
  | Err e => (e = EArchiveDuplicate /\ exists j, (j < n')%nat /\ twoFiles (dir j (firstn 16 seg)) seg) \/
             (e = EArchiveTimeout /\ exists j, n' = (j + 2)%nat /\ (n < j)%nat /\ noFile (dir j (firstn 16 seg)) seg /\ fdTimeout f <= (now (S j) - now n) mod 2 ^ 64)
  | UB => (forall i, now i < now (S i)) -> (forall i, now i - now n < 2 ^ 64) -> Z.of_nat fuel < fdTimeout f + 3
  end.
Proof.
  intros Sg K Lt T E. unfold walSegmentFind in E. destruct (new_inv (fdTimeout f) (now n) ltac:(lia)) as (Iv & Sl & Rt). set (w := waitNew (fdTimeout f) (now n)) in *.
  destruct (findLoop dir now fuel f w seg (S n)) as [[r1 f1] n1] eqn:L.
  assert (K' : kept f (S n) last). { clear - K. unfold kept in *. destruct (fdList f); [|exact I]. destruct (fdPrefix f); [|exact K]. destruct K as (K1 & j & pre & K2 & K3). split; [exact K1|]. exists j, pre. split; [lia|exact K3]. }
  destruct (loop _ _ _ _ _ _ _ _ _ Sg K' Lt L) as (O & K1 & Ln & Q1 & Q2).
  injection E as <- <- <-. split; [exact K1|]. split; [lia|]. split; [exact Q1|]. split; [exact Q2|]. rewrite Q2 in *. destruct r1 as [[a|]|e|].
  - exact O.
  - destruct (Z.eqb_spec (fdTimeout f) 0); [lia|]. right. split; [reflexivity|]. pose proof (first_pos (fdTimeout f) ltac:(lia)).
    destruct (loop_none (fdTimeout f) (now n) _ _ _ _ _ _ _ _ ltac:(lia) Sg K' Lt Iv ltac:(lia) ltac:(right; lia) L) as (j & J1 & J2 & J3 & J4). exists j. split; [exact J1|]. split; [lia|]. split; [exact J3|exact J4].
  - left. exact O.
  - intros Mono Small. destruct (Z_lt_ge_dec (Z.of_nat fuel) (fdTimeout f + 3)) as [D|D]; [exact D|]. exfalso. pose proof (Mono n).
    eapply (loop_ends (fdTimeout f) (now n)); [| exact Sg | exact K' | exact Lt | exact Iv | exact Mono | | exact Small | | exact L | reflexivity]; lia.
Qed.
End Find.
