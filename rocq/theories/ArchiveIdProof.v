From Verif Require Import Base Str ConvertModel NumModel NumSpec NumProof ArchiveIdModel ArchiveIdSpec.
Open Scope Z_scope.

(** * Version text *)
Lemma version_cases v : isVersion v -> (exists m, 10 <= m /\ v = m * 10000 /\ v < 2 ^ 32) \/ (exists a b, 0 <= a < 10 /\ 0 <= b < 100 /\ v = a * 10000 + b * 100).
Proof. intros (s & H). destruct H; [left; eauto|right; eauto 8]. Qed.

Lemma toStr_text v : isVersion v -> versionText v (pgVersionToStr v).
Proof.
  intros H. unfold pgVersionToStr, cvtUIntToZ. destruct (version_cases v H) as [(m & Hm & -> & Hv)|(a & b & Ha & Hb & ->)].
  - destruct (Z.leb_spec 100000 (m * 10000)) as [_|]; [|lia]. rewrite Z.div_mul by lia. constructor; [lia|lia|]. apply numText_is; unfold two64; lia.
  - destruct (Z.leb_spec 100000 (a * 10000 + b * 100)) as [|_]; [lia|].
    replace ((a * 10000 + b * 100) / 10000) with a by lia. replace ((a * 10000 + b * 100) mod 10000 / 100) with b by lia.
    apply (vt_old a b); [lia|lia| |]; apply numText_is; unfold two64; lia.
Qed.

Lemma digits_chars s v : digitsIs 10 s v -> s <> [] /\ forall c, In c s -> isDigit c = true.
Proof.
  intros H. apply digitsIs_iff in H; [|lia]. destruct H as (N & A & _). split; [exact N|]. intros c Hc. destruct (A c Hc) as (d & E).
  apply digitVal_spec in E; [|lia]. destruct E as (E & L). destruct E; unfold isDigit; lia.
Qed.

Lemma span_all p s c r : (forall x, In x s -> p x = true) -> p c = false -> spanB p (s ++ c :: r) = (s, c :: r).
Proof. intros A Hc. induction s as [|x s IH]; cbn; [rewrite Hc; reflexivity|]. rewrite (A x (or_introl eq_refl)), IH by (intros y Hy; apply A; right; exact Hy). reflexivity. Qed.
Lemma span_end p s : (forall x, In x s -> p x = true) -> spanB p s = (s, []).
Proof. intros A. induction s as [|x s IH]; cbn; [reflexivity|]. rewrite (A x (or_introl eq_refl)), IH by (intros y Hy; apply A; right; exact Hy). reflexivity. Qed.
Lemma span_none p s : (forall x, In x s -> p x = false) -> spanB p s = ([], s).
Proof. destruct s as [|x s]; [reflexivity|]. intros A. cbn. rewrite (A x (or_introl eq_refl)). reflexivity. Qed.

Lemma chr_none s c : ~ In c s -> strChr s c = None.
Proof. induction s as [|x s IH]; intros H; [reflexivity|]. cbn. destruct (Z.eqb_spec x c) as [->|N]; [exfalso; apply H; left; reflexivity|]. rewrite IH; [reflexivity|]. intros X. apply H. right. exact X. Qed.
Lemma chr_at s c r : ~ In c s -> strChr (s ++ c :: r) c = Some (length s).
Proof.
  induction s as [|x s IH]; intros H; cbn; [rewrite Z.eqb_refl; reflexivity|]. destruct (Z.eqb_spec x c) as [->|N]; [exfalso; apply H; left; reflexivity|].
  rewrite IH; [reflexivity|]. intros X. apply H. right. exact X.
Qed.

Lemma value_bound s : forall acc, (forall c, In c s -> isDigit c = true) -> 0 <= acc < 1 -> valueOf 10 s acc < 10 ^ Z.of_nat (length s).
Proof.
  assert (G : forall s acc, (forall c, In c s -> isDigit c = true) -> 0 <= acc -> valueOf 10 s acc < (acc + 1) * 10 ^ Z.of_nat (length s)).
  { clear. induction s as [|c s IH]; intros acc A H; [cbn; lia|]. cbn [valueOf length]. rewrite Nat2Z.inj_succ, Z.pow_succ_r by lia.
    assert (D : exists d, digitVal 10 c = Some d /\ 0 <= d < 10).
    { specialize (A c (or_introl eq_refl)). unfold isDigit in A. exists (c - 48). unfold digitVal. replace ((48 <=? c) && (c <=? 57)) with true by lia.
      destruct (Z.ltb_spec (c - 48) 10); [split; [reflexivity|lia]|lia]. }
    destruct D as (d & -> & Hd). specialize (IH (acc * 10 + d)). assert (0 < 10 ^ Z.of_nat (length s)) by (apply Z.pow_pos_nonneg; lia).
    eapply Z.lt_le_trans; [apply IH; [intros x Hx; apply A; right; exact Hx|lia]|]. nia. }
  intros acc A H. replace acc with 0 by lia. specialize (G s 0 A). lia.
Qed.

Lemma digits_ge10 s v : digitsIs 10 s v -> 10 <= v -> (2 <= length s)%nat.
Proof.
  intros H L. pose proof (digits_chars s v H) as (N & A). apply digitsIs_iff in H; [|lia]. destruct H as (_ & _ & E).
  pose proof (value_bound s 0 A ltac:(lia)) as B. destruct s as [|x [|y s]]; [contradiction| |cbn; lia]. cbn [length] in B. change (10 ^ Z.of_nat 1) with 10 in B. lia.
Qed.

Lemma fromStr_text v s : versionText v s -> pgVersionFromStr s = Ok v.
Proof.
  intros H. unfold pgVersionFromStr. destruct H as [m s Hm Hv D|a b s t Ha Hb Ds Dt].
  - destruct (digits_chars s m D) as (N & A). assert (R : versionRegExp s = true).
    { unfold versionRegExp. rewrite (span_end isDigit s A). cbn [spanB]. apply Nat.leb_le. apply digits_ge10 with m; assumption. }
    rewrite R. cbn [negb]. rewrite chr_none. 2:{ intros X. apply A in X. discriminate. }
    assert (C : cvtZToUInt 10 s = Ok m). { apply cvtZToUInt_spec; [lia|]. split; [apply digits_unsigned; exact D|unfold two32; lia]. }
    rewrite C. cbn [bind]. unfold u32. rewrite Z.mod_small by lia. reflexivity.
  - destruct (digits_chars s a Ds) as (N & A). destruct (digits_chars t b Dt) as (N' & A'). assert (R : versionRegExp (s ++ 46 :: t) = true).
    { unfold versionRegExp. rewrite span_all by (auto; reflexivity). cbn [spanB Z.eqb Pos.eqb]. rewrite (span_none (Z.eqb 46) t).
      2:{ intros x Hx. apply A' in Hx. unfold isDigit in Hx. lia. } rewrite (span_end isDigit t A'). destruct s; [contradiction|]. destruct t; [contradiction|reflexivity]. }
    rewrite R. cbn [negb]. rewrite chr_at. 2:{ intros X. apply A in X. discriminate. }
    unfold cvtZSubNToUInt. cbn [skipn]. rewrite firstn_app, firstn_all, Nat.sub_diag. cbn [firstn]. rewrite app_nil_r.
    assert (C : forall x y, digitsIs 10 x y -> y < 100 -> cvtZToUInt 10 x = Ok y).
    { intros x y Dx L. apply cvtZToUInt_spec; [lia|]. split; [apply digits_unsigned; exact Dx|unfold two32; lia]. }
    rewrite (C s a Ds) by lia. cbn [bind]. replace (skipn (length s + 1) (s ++ 46 :: t)) with t.
    2:{ rewrite skipn_app. rewrite skipn_all2 by lia. replace (length s + 1 - length s)%nat with 1%nat by lia. reflexivity. }
    rewrite (C t b Dt) by lia. cbn [bind]. unfold u32. rewrite !(Z.mod_small _ (2 ^ 32)) by lia. reflexivity.
Qed.

Lemma version_roundtrip v : isVersion v -> pgVersionFromStr (pgVersionToStr v) = Ok v.
Proof. intros H. apply fromStr_text, toStr_text, H. Qed.

(** * Archive ids *)
Lemma id_text d : isVersion (pdVersion d) -> 0 <= pdId d < 2 ^ 32 -> archiveIdText (pdVersion d) (pdId d) (archiveIdOf d).
Proof. intros V I. eexists _, _. split; [apply toStr_text, V|]. split; [|reflexivity]. apply numText_is; unfold two64; lia. Qed.

Lemma version_nodash v s : versionText v s -> ~ In 45 s.
Proof.
  intros H X. destruct H as [m s _ _ D|a b s t _ _ D1 D2].
  - destruct (digits_chars s m D) as (_ & A). apply A in X. discriminate.
  - destruct (digits_chars s a D1) as (_ & A). destruct (digits_chars t b D2) as (_ & B). apply in_app_or in X. destruct X as [X|[X|X]]; [apply A in X; discriminate|discriminate|apply B in X; discriminate].
Qed.

Lemma split_first c (a b x y : str) : ~ In c a -> ~ In c b -> a ++ c :: x = b ++ c :: y -> a = b /\ x = y.
Proof.
  revert b. induction a as [|p a IH]; intros [|q b] Ha Hb E; cbn in *.
  - injection E as ->. auto.
  - injection E as -> _. exfalso. apply Hb. left. reflexivity.
  - injection E as -> _. exfalso. apply Ha. left. reflexivity.
  - injection E as -> E. destruct (IH b) as (-> & ->); [tauto|tauto|exact E|auto].
Qed.

Lemma id_text_inj v i v' i' s : archiveIdText v i s -> archiveIdText v' i' s -> v = v' /\ i = i'.
Proof.
  intros (a & x & V & I & ->) (b & y & V' & I' & E). apply split_first in E; [|eapply version_nodash; eassumption..]. destruct E as (-> & ->).
  split; [|eapply digitsIs_inj; [|eassumption|eassumption]; lia]. apply fromStr_text in V. apply fromStr_text in V'. congruence.
Qed.

(** * Lookup *)
Lemma findFirst_spec p l : match findFirst p l with
  | Some a => exists newer d older, l = newer ++ d :: older /\ p d = true /\ (forall x, In x newer -> p x = false) /\ a = archiveIdOf d
  | None => forall d, In d l -> p d = false
  end.
Proof.
  induction l as [|d l IH]; cbn [findFirst]; [intros d []|]. destruct (p d) eqn:E.
  - exists [], d, l. repeat split; auto. intros x [].
  - destruct (findFirst p l) as [a|].
    + destruct IH as (n & x & o & -> & P & N & ->). exists (d :: n), x, o. repeat split; auto. intros y [<-|Hy]; auto.
    + intros x [<-|Hx]; auto.
Qed.

Lemma match_spec this id version systemId :
  let same d := pdSystemId d = systemId /\ pdVersion d = version in
  match historyMatch this id version systemId with
  | Ok a => exists newer d older, ipHistory this = newer ++ d :: older /\ a = archiveIdOf d /\ same d /\
      ((pdId d = id) \/ (forall x, In x (ipHistory this) -> same x -> pdId x <> id) /\ (forall x, In x newer -> ~ same x))
  | Err e => e = EArchiveMismatch /\ forall d, In d (ipHistory this) -> ~ same d
  | UB => False
  end.
Proof.
  cbv zeta. unfold historyMatch.
  pose proof (findFirst_spec (fun d => (id =? pdId d) && (systemId =? pdSystemId d) && (version =? pdVersion d)) (ipHistory this)) as F1.
  pose proof (findFirst_spec (fun d => (systemId =? pdSystemId d) && (version =? pdVersion d)) (ipHistory this)) as F2.
  destruct (findFirst (fun d => (id =? pdId d) && (systemId =? pdSystemId d) && (version =? pdVersion d)) (ipHistory this)) as [a|].
  - destruct F1 as (n & d & o & E & P & _ & ->). exists n, d, o. split; [exact E|]. split; [reflexivity|]. lia.
  - destruct (findFirst _ (ipHistory this)) as [a|].
    + destruct F2 as (n & d & o & E & P & N & ->). exists n, d, o. split; [exact E|]. split; [reflexivity|]. split; [lia|]. right. split.
      * intros x Hx S. specialize (F1 x Hx). cbv beta in F1. lia. * intros x Hx S. specialize (N x Hx). cbv beta in N. lia.
    + split; [reflexivity|]. intros d Hd S. specialize (F2 d Hd). cbv beta in F2. lia.
Qed.

(** * Histories *)
(** built by create and upgrades *)
Inductive built : infoPg -> list (Z * Z) -> Prop :=
| b_new v s i : infoArchiveNew v s = Ok i -> built i [(v, s)]
| b_set i l v s j : built i l -> infoPgSet i v s = Ok j -> built j ((v, s) :: l).

Fixpoint numbered (l : list (Z * Z)) : list pgData :=
  match l with [] => [] | (v, s) :: r => mkPg (Z.of_nat (S (length r))) v s :: numbered r end.

Lemma built_spec i l : built i l -> (Z.of_nat (length l) < 2 ^ 32) -> i = mkInfoPg (numbered l) 0 /\ l <> [].
Proof.
  induction 1 as [v s i H|i l v s j B IH H]; intros L.
  - injection H as <-. split; [reflexivity|discriminate].
  - destruct IH as (-> & N); [cbn in L; lia|]. split; [|discriminate]. unfold infoPgSet in H. destruct l as [|(v', s') l]; [contradiction|].
    cbn [ipHistory numbered nth_error ipCurrent bind] in H. injection H as <-. unfold infoPgAdd. cbn [ipHistory numbered length] in *. f_equal. f_equal.
    unfold u32. cbn [pdId]. rewrite Z.mod_small; [f_equal; lia|lia].
Qed.

Lemma numbered_len l : length (numbered l) = length l.
Proof. induction l as [|(v, s) l IH]; [reflexivity|]. cbn. rewrite IH. reflexivity. Qed.
Lemma numbered_in l d : In d (numbered l) -> 1 <= pdId d <= Z.of_nat (length l) /\ In (pdVersion d, pdSystemId d) l.
Proof.
  induction l as [|(v, s) l IH]; [intros []|]. cbn [numbered length]. intros [<-|H]; [cbn [pdId pdVersion pdSystemId]; split; [lia|left; reflexivity]|].
  destruct (IH H). split; [lia|right; assumption].
Qed.
Lemma numbered_nodup l : NoDup (map pdId (numbered l)).
Proof.
  induction l as [|(v, s) l IH]; [constructor|]. cbn [numbered map pdId]. constructor; [|exact IH]. intros X. apply in_map_iff in X. destruct X as (d & E & Hd).
  apply numbered_in in Hd. lia.
Qed.

(** * Save and load *)
Definition okData (d : pgData) : Prop := 1 <= pdId d < 2 ^ 32 /\ isVersion (pdVersion d).

Lemma load_lines l : forall acc, Forall okData l ->
  loadLines (map (fun d => (cvtUIntToZ (pdId d), pgVersionToStr (pdVersion d), pdSystemId d)) l) acc = Ok (rev l ++ acc).
Proof.
  induction l as [|d l IH]; intros acc H; [reflexivity|]. inversion H as [|? ? (Hi & Hv) H']; subst. cbn [map loadLines].
  assert (C : cvtZToUInt 10 (cvtUIntToZ (pdId d)) = Ok (pdId d)).
  { apply cvtZToUInt_spec; [lia|]. split; [|unfold two32; lia]. apply digits_unsigned. apply numText_is; unfold two64; lia. }
  rewrite C. cbn [bind]. rewrite version_roundtrip by exact Hv. cbn [bind]. rewrite IH by exact H'. cbn [rev]. rewrite <- app_assoc. destruct d. reflexivity.
Qed.

Lemma findLast_none id l : forall idx f, ~ In id (map pdId l) -> findLast id l idx f = f.
Proof.
  induction l as [|d l IH]; intros idx f H; [reflexivity|]. cbn in *. destruct (Z.eqb_spec (pdId d) id) as [E|E]; [tauto|]. apply IH. tauto.
Qed.
Lemma findLast_unique l : forall k d idx f, NoDup (map pdId l) -> nth_error l k = Some d -> findLast (pdId d) l idx f = Some (idx + k)%nat.
Proof.
  induction l as [|x l IH]; intros k d idx f N H; [destruct k; discriminate|]. cbn [map] in N. inversion N as [|? ? N1 N2]; subst. destruct k as [|k]; cbn [nth_error findLast] in *.
  - injection H as ->. rewrite Z.eqb_refl, findLast_none by exact N1. f_equal. lia.
  - rewrite (IH k d) by assumption. f_equal. lia.
Qed.

Lemma save_load i f : Forall okData (ipHistory i) -> NoDup (map pdId (ipHistory i)) -> infoPgSave i = Ok f -> infoPgNewLoad f = Ok i.
Proof.
  intros A N H. unfold infoPgSave in H. destruct (nth_error (ipHistory i) (ipCurrent i)) as [d|] eqn:E; [|discriminate]. injection H as <-.
  unfold infoPgNewLoad. cbn [pfLines pfCurrentId]. rewrite load_lines by (apply Forall_rev; exact A). rewrite rev_involutive, app_nil_r. cbn [bind].
  assert (Hin : In d (ipHistory i)) by (apply nth_error_In in E; exact E). destruct (ipHistory i) as [|x l] eqn:EL; [destruct Hin|].
  rewrite Forall_forall in A. destruct (A d Hin) as (Hi & _). destruct (Z.eqb_spec (pdId d) 0); [lia|]. rewrite (findLast_unique (x :: l) (ipCurrent i) d 0 None N E).
  destruct i as [h c]. cbn in *. subst. reflexivity.
Qed.
