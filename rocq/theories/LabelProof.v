(** Proofs for backup labels. *)
From Verif Require Import Base Str ExpireModel HistExpireModel LabelModel LabelSpec.
From Coq Require Import Sorted.
Open Scope Z_scope.

Lemma skipn_skipn {A} (n : nat) : forall m (l : list A), skipn n (skipn m l) = skipn (n + m) l.
Proof. induction m as [|m IH]; intros l; [now rewrite Nat.add_0_r|]. destruct l as [|x l]; [now rewrite !skipn_nil|]. rewrite Nat.add_succ_r. cbn [skipn]. apply IH. Qed.

(** * Expressions *)
Lemma digits_spec l : forallb isDigit l = true <-> Forall digit l.
Proof. rewrite forallb_forall, Forall_forall. unfold isDigit, digit. split; intros H x Hx; specialize (H x Hx); rewrite ?andb_true_iff, ?Z.leb_le in *; lia. Qed.
Lemma dt_spec s : isDateTime s = true <-> isDT s.
Proof.
  unfold isDateTime. rewrite !andb_true_iff, Nat.eqb_eq, !digits_spec, strEqb_eq. split.
  - intros (((L & D) & M) & T). exists (firstn 8 s), (skipn 9 s). rewrite firstn_length, skipn_length, L. repeat split; auto.
    rewrite <- (firstn_skipn 8 s) at 1. f_equal. rewrite <- (firstn_skipn 1 (skipn 8 s)), M. cbn [app]. f_equal. now rewrite skipn_skipn.
  - intros (d & t & -> & Ld & Lt & D & T). rewrite app_length. cbn [length]. rewrite Ld, Lt. rewrite !firstn_app, !skipn_app, Ld, firstn_all2 by lia. rewrite (skipn_all2 d) by lia. rewrite (skipn_all2 d) by lia. cbn. rewrite app_nil_r. auto.
Qed.
Lemma dt_len s : isDT s -> length s = 15%nat.
Proof. intros (d & t & -> & Ld & Lt & _). rewrite app_length. cbn. lia. Qed.
Lemma full_spec s : labelFull s = true <-> isFull s.
Proof.
  unfold labelFull. rewrite !andb_true_iff, Nat.eqb_eq, dt_spec, strEqb_eq. split.
  - intros ((_ & D) & E). exists (firstn 15 s). split; [exact D|]. now rewrite <- E, firstn_skipn.
  - intros (d & D & ->). pose proof (dt_len d D) as L. rewrite app_length, L, firstn_app, skipn_app, L, firstn_all2, skipn_all2 by lia. cbn. rewrite app_nil_r. auto.
Qed.
Lemma full_len s : isFull s -> length s = 16%nat.
Proof. intros (d & D & ->). rewrite app_length, (dt_len d D). reflexivity. Qed.
Lemma dep_split (f d : str) c : length f = 16%nat -> length d = 15%nat -> let s := f ++ 95 :: d ++ [c] in
  length s = 33%nat /\ firstn 16 s = f /\ firstn 17 s = f ++ [95] /\ firstn 1 (skipn 16 s) = [95] /\ firstn 15 (skipn 17 s) = d /\ skipn 32 s = [c].
Proof.
  intros Lf Ld s. unfold s. rewrite app_length. cbn [length]. rewrite app_length. cbn [length]. split; [lia|].
  assert (Df : firstn (length d) (d ++ [c]) = d) by (rewrite firstn_app, Nat.sub_diag, firstn_all; apply app_nil_r).
  assert (Ds : skipn (length d) (d ++ [c]) = [c]) by (rewrite skipn_app, Nat.sub_diag, skipn_all; reflexivity). rewrite Ld in *.
  split; [rewrite firstn_app, Lf, firstn_all2 by lia; apply app_nil_r|]. split; [rewrite firstn_app, Lf, firstn_all2 by lia; reflexivity|].
  split; [rewrite skipn_app, Lf, skipn_all2 by lia; reflexivity|]. split.
  - rewrite skipn_app, Lf, skipn_all2 by lia. exact Df.
  - rewrite skipn_app, Lf, skipn_all2 by lia. exact Ds.
Qed.
Lemma five (s : str) : length s = 33%nat -> s = firstn 16 s ++ firstn 1 (skipn 16 s) ++ firstn 15 (skipn 17 s) ++ skipn 32 s.
Proof.
  intros L. rewrite <- (firstn_skipn 16 s) at 1. f_equal. rewrite <- (firstn_skipn 1 (skipn 16 s)) at 1. f_equal. rewrite skipn_skipn. rewrite <- (firstn_skipn 15 (skipn (1 + 16) s)) at 1. f_equal. now rewrite skipn_skipn.
Qed.
Lemma depc_spec c s : labelDep c s = true <-> exists f d, isFull f /\ isDT d /\ s = f ++ 95 :: d ++ [c].
Proof.
  unfold labelDep. rewrite !andb_true_iff, Nat.eqb_eq, full_spec, dt_spec, !strEqb_eq. split.
  - intros ((((L & F) & U) & D) & C). exists (firstn 16 s), (firstn 15 (skipn 17 s)). split; [exact F|]. split; [exact D|]. rewrite (five s L) at 1. now rewrite U, C.
  - intros (f & d & F & D & ->). destruct (dep_split f d c (full_len f F) (dt_len d D)) as (A1 & A2 & _ & A3 & A4 & A5). rewrite A1, A2, A3, A4, A5. auto.
Qed.
Lemma any_spec s : labelAny s = true <-> isLabel s.
Proof.
  unfold labelAny, labelDiff, labelIncr, isLabel, isDep. rewrite !orb_true_iff, full_spec, !depc_spec. split.
  - intros [[H|(f & d & F & D & E)]|(f & d & F & D & E)]; [auto|right; exists f; split; [exact F|]; exists d, 68; auto|right; exists f; split; [exact F|]; exists d, 73; auto].
  - intros [H|(f & F & d & c & D & [-> | ->] & E)]; [auto|left; right; eauto|right; eauto].
Qed.
Lemma set_spec f prior s : isFull f -> firstn 16 prior = f -> (labelOfSet prior s = true <-> isDep f s).
Proof.
  intros (d0 & D0 & E0) EP. pose proof (dt_len d0 D0) as L0. assert (E15 : firstn 15 prior ++ [70;95] = f ++ [95]).
  { assert (firstn 15 prior = d0). { replace (firstn 15 prior) with (firstn 15 (firstn 16 prior)) by (rewrite firstn_firstn; reflexivity). rewrite EP, E0. rewrite firstn_app, L0, firstn_all2 by lia. apply app_nil_r. } rewrite H, E0, <- app_assoc. reflexivity. }
  assert (F : isFull f) by (exists d0; auto).
  unfold labelOfSet. rewrite E15, !andb_true_iff, Nat.eqb_eq, dt_spec, strEqb_eq, orb_true_iff, !strEqb_eq. split.
  - intros (((L & U) & D) & C). rewrite (five s L). assert (firstn 16 s = f /\ firstn 1 (skipn 16 s) = [95]) as (-> & ->).
    { assert (U' : firstn 16 s ++ firstn 1 (skipn 16 s) = f ++ [95]).
      { rewrite <- U. clear - L. do 17 (destruct s as [|? s]; [discriminate L|]). reflexivity. } clear U. rename U' into U.
      assert (X : length (firstn 16 s) = length f) by (rewrite firstn_length, L, (full_len f F); reflexivity).
      revert U X. generalize (firstn 16 s) (firstn 1 (skipn 16 s)). intros a b U X. split.
      - apply (f_equal (firstn (length a))) in U. rewrite firstn_app, Nat.sub_diag, firstn_all, app_nil_r in U. rewrite X, firstn_app, Nat.sub_diag, firstn_all, app_nil_r in U. exact U.
      - apply (f_equal (skipn (length a))) in U. rewrite skipn_app, Nat.sub_diag, skipn_all in U. rewrite X, skipn_app, Nat.sub_diag, skipn_all in U. exact U. }
    destruct C as [C|C]; rewrite C; [exists (firstn 15 (skipn 17 s)), 68|exists (firstn 15 (skipn 17 s)), 73]; auto.
  - intros (d & c & D & HC & ->). destruct (dep_split f d c (full_len f F) (dt_len d D)) as (A1 & A2 & A2' & A3 & A4 & A5). rewrite A1, A2', A4, A5. repeat split; auto. destruct HC as [-> | ->]; auto.
Qed.

(** * Latest label *)
Lemma desc_head l : match hd_error (strLstSortDesc l) with None => l = [] | Some m => In m l /\ forall x, In x l -> sle x m end.
Proof.
  pose proof (strLstSortDesc_sorted l) as HS. pose proof (strLstSortDesc_in l) as HI. destruct (strLstSortDesc l) as [|m r]; cbn.
  - destruct l as [|a l]; [reflexivity|]. destruct (proj2 (HI a)); now left.
  - split; [apply HI; now left|]. intros x Hx. apply HI in Hx. destruct Hx as [->|Hx]; [apply sle_refl|]. inversion HS as [|? ? _ HF]. rewrite Forall_forall in HF. now apply HF.
Qed.
Lemma year_spec s : isYear s = true <-> yearName s.
Proof.
  unfold isYear, yearName. rewrite !andb_true_iff, Nat.eqb_eq, strEqb_eq, digits_spec. split.
  - intros ((L & H) & D). destruct s as [|a [|b [|c [|d [|]]]]]; try discriminate. cbn in H. injection H as ->. exists b, c, d. split; [reflexivity|]. inversion D as [|? ? _ D1]; subst. inversion D1 as [|? ? X D2]; subst. inversion D2 as [|? ? Y D3]; subst. inversion D3 as [|? ? W D4]; subst. auto.
  - intros (a & b & c & -> & A & B & C). split; [split; reflexivity|]. assert (digit 50) by (unfold digit; lia). apply Forall_cons; [assumption|]. auto.
Qed.
Lemma ext_last (x : str) : (12 <=? length (x ++ manifestExt))%nat && strEqb (skipn (length (x ++ manifestExt) - 12) (x ++ manifestExt)) manifestExt = true /\ firstn (length (x ++ manifestExt) - 12) (x ++ manifestExt) = x.
Proof.
  rewrite app_length. change (length manifestExt) with 12%nat. replace (length x + 12 - 12)%nat with (length x) by lia. rewrite skipn_app, firstn_app, Nat.sub_diag, skipn_all, firstn_all. cbn [app skipn firstn]. rewrite app_nil_r, strEqb_refl, andb_true_r. split; [apply Nat.leb_le; lia|reflexivity].
Qed.
Lemma hist_spec t prior s : historyExpression t prior s = true <-> exists x, s = x ++ manifestExt /\ labelExpression t prior x = true.
Proof.
  unfold historyExpression. split.
  - rewrite !andb_true_iff, strEqb_eq. intros ((L & E) & H). exists (firstn (length s - 12) s). split; [|exact H]. now rewrite <- E, firstn_skipn.
  - intros (x & -> & H). destruct (ext_last x) as (A & B). now rewrite A, B.
Qed.
(** Orders with and without the extension *)
Lemma digit46 c : digit c -> 46 < c. Proof. unfold digit. lia. Qed.
Lemma cmp_app a b e f : length a = length b -> a <> b -> strCmp (a ++ e) (b ++ f) = strCmp a b.
Proof.
  revert b. induction a as [|x a IH]; intros [|y b] L N; cbn in *; try discriminate; [congruence|]. destruct (Z.compare_spec x y); [|reflexivity|reflexivity]. subst. apply IH; [lia|congruence].
Qed.
Lemma cmp_pre a e f : strCmp (a ++ e) (a ++ f) = strCmp e f.
Proof. induction a as [|x a IH]; cbn; [reflexivity|]. now rewrite Z.compare_refl. Qed.
(** For labels, the manifest name sorts as the label. *)
Lemma ext_order x y : isLabel x -> isLabel y -> sle (x ++ manifestExt) (y ++ manifestExt) -> sle x y.
Proof.
  intros Hx Hy H.
  assert (Dep : forall f s, isFull f -> isDep f s -> exists t, s = f ++ 95 :: t /\ length s = 33%nat).
  { intros f s F (d & c & D & _ & ->). exists (d ++ [c]). split; [reflexivity|]. rewrite app_length. cbn [length]. rewrite app_length, (full_len f F), (dt_len d D). reflexivity. }
  destruct (str_dec x y) as [->|N]; [apply sle_refl|].
  destruct Hx as [Fx|(fx & Fx & Dx)], Hy as [Fy|(fy & Fy & Dy)].
  - unfold sle in *. rewrite cmp_app in H; auto. now rewrite (full_len x Fx), (full_len y Fy).
  - destruct (Dep fy y Fy Dy) as (t & -> & _). destruct (str_dec x fy) as [->|N']; [rewrite <- (app_nil_r fy) at 1; unfold sle; rewrite cmp_pre; discriminate|].
    unfold sle in *. rewrite <- app_assoc, cmp_app in H by (auto; now rewrite (full_len x Fx), (full_len fy Fy)). rewrite <- (app_nil_r x). rewrite cmp_app; auto. now rewrite (full_len x Fx), (full_len fy Fy).
  - destruct (Dep fx x Fx Dx) as (t & -> & _). destruct (str_dec fx y) as [->|N'].
    + exfalso. unfold sle in H. rewrite <- app_assoc, cmp_pre in H. now cbn in H.
    + unfold sle in *. rewrite <- app_assoc, cmp_app in H by (auto; now rewrite (full_len y Fy), (full_len fx Fx)). rewrite <- (app_nil_r y). rewrite cmp_app; auto. now rewrite (full_len y Fy), (full_len fx Fx).
  - destruct (Dep fx x Fx Dx) as (t & _ & Lx). destruct (Dep fy y Fy Dy) as (t' & _ & Ly). unfold sle in *. rewrite cmp_app in H; auto. congruence.
Qed.
Lemma sle_ext x y : sle x y -> sle x (y ++ manifestExt).
Proof. intros H. eapply sle_trans; [exact H|]. rewrite <- (app_nil_r y) at 1. unfold sle. rewrite cmp_pre. discriminate. Qed.
(** A label not after a manifest name is not after its label. *)
Lemma ext_cut x y : isLabel x -> isLabel y -> sle x (y ++ manifestExt) -> sle x y.
Proof.
  intros Hx Hy H. destruct (sle_total x y) as [L|L]; [exact L|]. destruct (str_dec x y) as [->|N]; [apply sle_refl|exfalso].
  assert (slt y x) by (apply sle_lt_eq in L; destruct L; congruence).
  (* y < x <= y.ext: x extends y with something not above the extension, but labels continue with '_' *)
  assert (Ey : exists t, x = y ++ t).
  { clear - H H0. revert y H H0. induction x as [|a x IH]; intros [|b y] H H0; cbn in *; [exists []; reflexivity|discriminate H0|exists (a :: x); reflexivity|]. unfold sle, slt in *. cbn in *. destruct (Z.compare_spec a b) as [->|?|?]; [|rewrite Z.compare_antisym in H0; destruct (Z.compare_spec a b); try lia; cbn in H0; discriminate|congruence].
    rewrite Z.compare_refl in H0. destruct (IH y H H0) as (t & ->). exists t. reflexivity. }
  destruct Ey as (t & ->). unfold sle in H. rewrite cmp_pre in H. destruct t as [|c t]; [rewrite app_nil_r in N; congruence|].
  assert (C : 46 < c).
  { assert (Lb : forall s, isLabel s -> (length s = 16 \/ length s = 33)%nat /\ forall z, nth_error s 16 = Some z -> z = 95).
    { intros s [F|(f & F & d & c' & D & _ & ->)].
      - rewrite (full_len s F). split; [auto|]. intros z E. assert (16 < length s)%nat by (apply nth_error_Some; congruence). rewrite (full_len s F) in *. lia.
      - rewrite app_length. cbn [length]. rewrite app_length. cbn [length]. rewrite (full_len f F), (dt_len d D). split; [auto|]. intros z E. rewrite nth_error_app2 in E by (rewrite (full_len f F); lia). rewrite (full_len f F) in E. cbn in E. congruence. }
    destruct (Lb y Hy) as ([Ly|Ly] & _); destruct (Lb _ Hx) as ([Lx|Lx] & HZ); rewrite app_length in Lx; cbn in Lx; try lia.
    specialize (HZ c). rewrite nth_error_app2 in HZ by lia. rewrite Ly in HZ. cbn in HZ. rewrite HZ by reflexivity. lia. }
  cbn in H. destruct (Z.compare_spec c 46); try lia. congruence.
Qed.

(** [t], [prior] say which labels count. *)
Definition counts (t : backupType) (prior : str) (x : str) : Prop := labelExpression t prior x = true.
Definition typeOk (t : backupType) (prior : str) : Prop := match t with BFull => True | _ => isFull (firstn 16 prior) end.
Lemma counts_spec t prior x : typeOk t prior -> (counts t prior x <-> match t with BFull => isLabel x | _ => isDep (firstn 16 prior) x end).
Proof. intros H. unfold counts. destruct t; cbn [labelExpression]; [apply any_spec|apply set_spec; auto|apply set_spec; auto]. Qed.
Lemma counts_label t prior x : typeOk t prior -> counts t prior x -> isLabel x.
Proof. intros HT H. rewrite (counts_spec t prior x HT) in H. destruct t; [exact H|right; exists (firstn 16 prior); auto|right; exists (firstn 16 prior); auto]. Qed.

Lemma latestHistory_spec t prior hist : NoDup (map hyName hist) ->
  match latestHistory t prior hist with
  | None => forall h x, newest hist h -> counts t prior x -> ~ inYear h x
  | Some s => exists h x, newest hist h /\ s = x ++ manifestExt /\ inYear h x /\ counts t prior x /\ forall y, counts t prior y -> inYear h y -> sle (y ++ manifestExt) s
  end.
Proof.
  intros ND. unfold latestHistory. pose proof (desc_head (filter isYear (map hyName hist))) as DY.
  destruct (strLstSortDesc (filter isYear (map hyName hist))) as [|y ys]; cbn in DY.
  - intros h x (H1 & H2 & _). assert (In (hyName h) (filter isYear (map hyName hist))) by (apply filter_In; split; [now apply in_map|now apply year_spec]). rewrite DY in H. destruct H.
  - destruct DY as (HY & MY). apply filter_In in HY. destruct HY as (HY & YY). apply year_spec in YY.
    assert (Uniq : forall h1 h2, In h1 hist -> In h2 hist -> hyName h1 = hyName h2 -> h1 = h2).
    { clear - ND. induction hist as [|h hist IH]; intros h1 h2 H1 H2 E; [destruct H1|]. cbn in ND. inversion ND as [|? ? NI ND']; subst. destruct H1 as [<-|H1], H2 as [<-|H2]; auto.
      - elim NI. rewrite E. now apply in_map.
      - elim NI. rewrite <- E. now apply in_map. }
    destruct (find (fun h => strEqb (hyName h) y) hist) as [h|] eqn:EF.
    + apply find_some in EF. destruct EF as (Hh & E). apply strEqb_eq in E.
      assert (NW : newest hist h). { split; [exact Hh|]. rewrite E. split; [exact YY|]. intros h' Hh' Yh'. apply MY. apply filter_In. split; [now apply in_map|now apply year_spec]. }
      pose proof (desc_head (filter (historyExpression t prior) (hyFiles h))) as DF. destruct (hd_error (strLstSortDesc (filter (historyExpression t prior) (hyFiles h)))) as [s|].
      * destruct DF as (H1 & H2). apply filter_In in H1. destruct H1 as (H1 & X). apply hist_spec in X. destruct X as (x & -> & X). exists h, x. repeat split; auto; try apply NW. intros z Cz Iz. apply H2. apply filter_In. split; [exact Iz|]. apply hist_spec. eauto.
      * intros h' x (N1 & N2 & N3) Cx Ix. assert (h' = h). { apply Uniq; auto. apply sle_antisym; [apply NW; auto|apply N3; [exact Hh|apply NW]]. } subst h'.
        assert (In (x ++ manifestExt) (filter (historyExpression t prior) (hyFiles h))) by (apply filter_In; split; [exact Ix|apply hist_spec; eauto]). rewrite DF in H. destruct H.
    + apply in_map_iff in HY. destruct HY as (h & E & Hh). apply (find_none _ _ EF) in Hh. rewrite E, strEqb_refl in Hh. discriminate.
Qed.

Section Create.
  Variable format : Z -> str.
  Variables (t : backupType) (prior : str) (dirs : list str) (hist : list histYear).
  Hypothesis HT : typeOk t prior.
  Hypothesis ND : NoDup (map hyName hist).
  Definition considered (x : str) : Prop := counts t prior x /\ (In x dirs \/ exists h, newest hist h /\ inYear h x).

  Lemma latest_spec : match labelLatest t prior dirs hist with
    | None => forall x, ~ considered x
    | Some m => considered m /\ forall x, considered x -> sle x m
    end.
  Proof.
    pose proof (latestHistory_spec t prior hist ND) as HH. unfold labelLatest, latestBackup. pose proof (desc_head (filter (labelExpression t prior) dirs)) as HB.
    destruct (hd_error (strLstSortDesc (filter (labelExpression t prior) dirs))) as [b|]; [destruct HB as (B1 & B2); apply filter_In in B1; destruct B1 as (B1 & B3)|].
    - destruct (latestHistory t prior hist) as [s|].
      + destruct HH as (h & x & NW & -> & Ix & Cx & M). destruct (ext_last x) as (_ & EX). rewrite EX. destruct (strLtb_spec b (x ++ manifestExt)) as [L|L].
        * split; [split; [exact Cx|right; eauto]|]. intros y (Cy & [Hy|(h' & NW' & Iy)]).
          -- apply (ext_cut y x); [now apply (counts_label t prior)|now apply (counts_label t prior)|]. eapply sle_trans; [apply B2; apply filter_In; auto|now apply slt_le].
          -- assert (h' = h).
             { destruct NW as (N1 & N2 & N3), NW' as (M1 & M2 & M3). assert (E : hyName h' = hyName h) by (apply sle_antisym; auto). clear - ND N1 M1 E. induction hist as [|h0 l IH]; [destruct N1|]. cbn in ND. inversion ND as [|? ? NI ND']; subst. destruct N1 as [<-|H1], M1 as [<-|H2]; auto; elim NI; [rewrite <- E|rewrite E]; now apply in_map. }
             subst h'. apply (ext_order y x); [now apply (counts_label t prior)|now apply (counts_label t prior)|auto].
        * split; [split; [exact B3|now left]|]. intros y (Cy & [Hy|(h' & NW' & Iy)]); [apply B2; apply filter_In; auto|].
          assert (h' = h).
             { destruct NW as (N1 & N2 & N3), NW' as (M1 & M2 & M3). assert (E : hyName h' = hyName h) by (apply sle_antisym; auto). clear - ND N1 M1 E. induction hist as [|h0 l IH]; [destruct N1|]. cbn in ND. inversion ND as [|? ? NI ND']; subst. destruct N1 as [<-|H1], M1 as [<-|H2]; auto; elim NI; [rewrite <- E|rewrite E]; now apply in_map. }
          subst h'. apply (sle_trans _ (y ++ manifestExt)); [rewrite <- (app_nil_r y) at 1; unfold sle; rewrite cmp_pre; discriminate|]. apply (sle_trans _ (x ++ manifestExt)); [auto|]. now apply sle_not_lt.
      + split; [split; [exact B3|now left]|]. intros y (Cy & [Hy|(h' & NW' & Iy)]); [apply B2; apply filter_In; auto|]. elim (HH h' y NW' Cy Iy).
    - assert (NB : forall y, counts t prior y -> ~ In y dirs). { intros y Cy Hy. assert (X : In y (filter (labelExpression t prior) dirs)) by (apply filter_In; auto). rewrite HB in X. destruct X. }
      destruct (latestHistory t prior hist) as [s|].
      + destruct HH as (h & x & NW & -> & Ix & Cx & M). destruct (ext_last x) as (_ & EX). rewrite EX. split; [split; [exact Cx|right; eauto]|]. intros y (Cy & [Hy|(h' & NW' & Iy)]); [elim (NB y Cy Hy)|].
        assert (h' = h).
             { destruct NW as (N1 & N2 & N3), NW' as (M1 & M2 & M3). assert (E : hyName h' = hyName h) by (apply sle_antisym; auto). clear - ND N1 M1 E. induction hist as [|h0 l IH]; [destruct N1|]. cbn in ND. inversion ND as [|? ? NI ND']; subst. destruct N1 as [<-|H1], M1 as [<-|H2]; auto; elim NI; [rewrite <- E|rewrite E]; now apply in_map. }
        subst h'. apply (ext_order y x); [now apply (counts_label t prior)|now apply (counts_label t prior)|auto].
      + intros y (Cy & [Hy|(h' & NW' & Iy)]); [exact (NB y Cy Hy)|exact (HH h' y NW' Cy Iy)].
  Qed.

  Lemma create_spec ts : match labelCreate format t prior ts dirs hist with
    | Ok l => (l = labelFormat format t prior ts \/ (l = labelFormat format t prior (ts + 1) /\ exists x, considered x /\ sle (labelFormat format t prior ts) x)) /\ forall x, considered x -> slt x l
    | Err k => k = EClock /\ exists x, considered x /\ sle (labelFormat format t prior ts) x /\ sle (labelFormat format t prior (ts + 1)) x
    | UB => False
    end.
  Proof.
    unfold labelCreate. pose proof latest_spec as HL. destruct (labelLatest t prior dirs hist) as [m|]; [|split; [now left|]; intros x Hx; elim (HL x Hx)].
    destruct HL as (H1 & H2). destruct (strLeb_spec (labelFormat format t prior ts) m) as [L|L].
    - destruct (strLeb_spec (labelFormat format t prior (ts + 1)) m) as [L'|L']; [split; [reflexivity|]; exists m; auto|]. split; [right; split; [reflexivity|]; exists m; auto|]. intros x Hx. apply (sle_slt_trans _ m); [auto|]. destruct (slt_total m (labelFormat format t prior (ts + 1))) as [?|[E|?]]; [assumption|elim L'; rewrite E; apply sle_refl|elim L'; now apply slt_le].
    - split; [now left|]. intros x Hx. apply (sle_slt_trans _ m); [auto|]. destruct (slt_total m (labelFormat format t prior ts)) as [?|[E|?]]; [assumption|elim L; rewrite E; apply sle_refl|elim L; now apply slt_le].
  Qed.
End Create.

(** Labels of older years *)
Lemma year_first x y : slt (firstn 4 x) (firstn 4 y) -> slt x y. Proof. apply prefix_slt. Qed.
Lemma full_create format ts dirs hist l : (forall n, isDT (format n)) -> historyOk hist -> newestUsed hist -> labelCreate format BFull [] ts dirs hist = Ok l ->
  isFull l /\ forall x, isLabel x -> In x dirs \/ inHistory hist x -> slt x l.
Proof.
  intros HF (ND & HO) HN H. pose proof (create_spec format BFull [] dirs hist I ND ts) as C. rewrite H in C. destruct C as (E & C). split; [destruct E as [-> |(-> & _)]; [exists (format ts)|exists (format (ts + 1))]; auto|].
  intros x Hx [Hd|(h & Hh & Ih)]; [apply C; split; [now apply any_spec|now left]|].
  destruct (HO h x Hh Hx Ih) as (Yh & Ex).
  (* the newest year *)
  assert (exists hm, newest hist hm /\ sle (hyName h) (hyName hm)) as (hm & NW & LE).
  { pose proof (desc_head (filter isYear (map hyName hist))) as DY. destruct (hd_error (strLstSortDesc (filter isYear (map hyName hist)))) as [y|].
    - destruct DY as (D1 & D2). apply filter_In in D1. destruct D1 as (D1 & D3). apply in_map_iff in D1. destruct D1 as (hm & <- & Hm). exists hm. split; [split; [exact Hm|split; [now apply year_spec|]]|].
      + intros h' Hh' Yh'. apply D2. apply filter_In. split; [now apply in_map|now apply year_spec].
      + apply D2. apply filter_In. split; [now apply in_map|now apply year_spec].
    - assert (X : In (hyName h) (filter isYear (map hyName hist))) by (apply filter_In; split; [now apply in_map|now apply year_spec]). rewrite DY in X. destruct X. }
  apply sle_lt_eq in LE. destruct LE as [LT|E1].
  - destruct (HN hm NW) as (z & Lz & Iz). destruct (HO hm z (proj1 NW) Lz Iz) as (_ & Ez). apply (slt_trans _ z); [apply year_first; now rewrite Ex, Ez|]. apply C. split; [now apply any_spec|right]. exists hm. split; [exact NW|exact Iz].
  - apply C. split; [now apply any_spec|right]. exists hm. split; [exact NW|]. assert (h = hm) as <-; [|exact Ih].
    destruct NW as (N1 & _). clear - ND N1 Hh E1. induction hist as [|h0 r IH]; [destruct N1|]. cbn in ND. inversion ND as [|? ? NI ND']; subst. destruct N1 as [<-|H1], Hh as [<-|H2]; auto; elim NI; [rewrite <- E1|rewrite E1]; now apply in_map.
Qed.
Lemma dep_create format ts dirs hist t prior f l : (forall n, isDT (format n)) -> t <> BFull -> isFull f -> firstn 16 prior = f -> historyOk hist -> labelCreate format t prior ts dirs hist = Ok l ->
  isDep f l /\ (forall x, isDep f x -> In x dirs -> slt x l) /\ ~ In l dirs /\
  ((forall h, In h hist -> yearName (hyName h) -> sle (hyName h) (firstn 4 f)) -> forall x, isDep f x -> inHistory hist x -> slt x l).
Proof.
  intros HF Ht F EP (ND & HO) H. assert (HT : typeOk t prior) by (destruct t; unfold typeOk; rewrite ?EP; auto).
  pose proof (create_spec format t prior dirs hist HT ND ts) as C. rewrite H in C. destruct C as (E & C).
  assert (CS : forall x, isDep f x -> counts t prior x). { intros x Hx. apply (counts_spec t prior x HT). destruct t; [congruence|now rewrite EP|now rewrite EP]. }
  assert (DL : isDep f l). { assert (forall n, isDep f (labelFormat format t prior n)). { intros n. destruct t; [congruence| |]; cbn [labelFormat]; rewrite EP; exists (format n); [exists 68|exists 73]; auto. } destruct E as [-> |(-> & _)]; auto. }
  assert (D : forall x, isDep f x -> In x dirs -> slt x l) by (intros x Hx Hd; apply C; split; [auto|now left]).
  split; [exact DL|]. split; [exact D|]. split; [intros Hd; exact (slt_irrefl l (D l DL Hd))|].
  intros HN x Hx (h & Hh & Ih). apply C. split; [auto|right]. exists h. split; [|exact Ih]. assert (LX : isLabel x) by (right; exists f; auto). destruct (HO h x Hh LX Ih) as (Yh & Ex). split; [exact Hh|]. split; [exact Yh|]. intros h' Hh' Yh'.
  rewrite <- Ex. assert (firstn 4 x = firstn 4 f) as ->; [|auto]. destruct Hx as (d & c & _ & _ & ->). rewrite firstn_app, (full_len f F). cbn [Nat.sub]. rewrite firstn_O. apply app_nil_r.
Qed.

(** When no label can be made *)
Lemma full_error format ts dirs hist : NoDup (map hyName hist) ->
  (exists k, labelCreate format BFull [] ts dirs hist = Err k) <->
  exists x, isLabel x /\ (In x dirs \/ exists h, newest hist h /\ inYear h x) /\ sle (format ts ++ [70]) x /\ sle (format (ts + 1) ++ [70]) x.
Proof.
  intros ND. pose proof (create_spec format BFull [] dirs hist I ND ts) as C. split.
  - intros (k & E). rewrite E in C. destruct C as (_ & x & (Cx & Hx) & L1 & L2). exists x. split; [now apply any_spec|]. auto.
  - intros (x & Lx & Hx & L1 & L2). assert (CX : considered BFull [] dirs hist x) by (split; [now apply any_spec|exact Hx]).
    destruct (labelCreate format BFull [] ts dirs hist) as [l|k|]; [exfalso|eauto|destruct C]. destruct C as ([-> |(-> & _)] & C); specialize (C x CX); apply sle_not_lt in L1; apply sle_not_lt in L2; cbn [labelFormat] in C; auto.
Qed.
Lemma dep_error format ts dirs hist t prior f : t <> BFull -> isFull f -> firstn 16 prior = f -> NoDup (map hyName hist) ->
  let label n := f ++ 95 :: format n ++ [match t with BDiff => 68 | _ => 73 end] in
  (exists k, labelCreate format t prior ts dirs hist = Err k) <->
  exists x, isDep f x /\ (In x dirs \/ exists h, newest hist h /\ inYear h x) /\ sle (label ts) x /\ sle (label (ts + 1)) x.
Proof.
  intros Ht F EP ND label. assert (HT : typeOk t prior) by (destruct t; unfold typeOk; rewrite ?EP; auto). pose proof (create_spec format t prior dirs hist HT ND ts) as C.
  assert (LF : forall n, labelFormat format t prior n = label n) by (intros n; unfold label; destruct t; [congruence| |]; cbn [labelFormat]; now rewrite EP).
  assert (CS : forall x, counts t prior x <-> isDep f x) by (intros x; rewrite (counts_spec t prior x HT); destruct t; [congruence|now rewrite EP|now rewrite EP]).
  rewrite !LF in C. split.
  - intros (k & E). rewrite E in C. destruct C as (_ & x & (Cx & Hx) & L1 & L2). exists x. split; [now apply CS|]. auto.
  - intros (x & Lx & Hx & L1 & L2). assert (CX : considered t prior dirs hist x) by (split; [now apply CS|exact Hx]).
    destruct (labelCreate format t prior ts dirs hist) as [l|k|]; [exfalso|eauto|destruct C]. destruct C as ([-> |(-> & _)] & C); specialize (C x CX); apply sle_not_lt in L1; apply sle_not_lt in L2; auto.
Qed.
Lemma create_which format ts dirs hist t prior l : labelCreate format t prior ts dirs hist = Ok l -> l = labelFormat format t prior ts \/ l = labelFormat format t prior (ts + 1).
Proof. unfold labelCreate. destruct (labelLatest t prior dirs hist); [|intros [= <-]; auto]. destruct (strLeb _ _); [|intros [= <-]; auto]. destruct (strLeb _ _); [discriminate|intros [= <-]; auto]. Qed.
Lemma create_kind format ts dirs hist t prior k : labelCreate format t prior ts dirs hist = Err k -> k = EClock.
Proof. unfold labelCreate. destruct (labelLatest t prior dirs hist); [|discriminate]. destruct (strLeb _ _); [|discriminate]. destruct (strLeb _ _); [intros [= <-]; auto|discriminate]. Qed.
