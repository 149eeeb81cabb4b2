(** Proofs for the files of the recovery settings. *)
From Verif Require Import Base Str LsnModel LsnProof RegModel RegNameModel RegSpec RegProof RegProof2 RegProof3 JsonModel IniModel SpoolModel SpoolSpec SpoolProof HttpModel HttpSpec HttpProof UriProof2 RecoverModel RecoverSpec RecoverProof.
From Coq Require Import String List Sorted Permutation.
Open Scope Z_scope. Open Scope list_scope.

(** * The expression for old targets *)
Fixpoint altLit (l : list str) : re := match l with [] => RNone | [x] => catAll (map rChr x) | x :: r => RAlt (catAll (map rChr x)) (altLit r) end.
Definition gapRe : re := RStar (RCls false [(9, 9); (32, 32)]).
Definition expRe : re := RCat RBeg (RCat gapRe (RCat (altLit targetNames) (RCat gapRe (RCat (rChr 61) REps)))).
Lemma exp_is : regExpNew recoveryExp = Ok expRe.
Proof. vm_compute. reflexivity. Qed.
Lemma lang_altLit l : l <> [] -> lang (altLit l) (fun s => In s l).
Proof.
  induction l as [|x l IH]; [contradiction|]. intros _. destruct l as [|y l].
  - eapply lang_ext; [apply lang_lit|]. intros s. cbn [In]. intuition congruence.
  - change (altLit (x :: y :: l)) with (RAlt (catAll (map rChr x)) (altLit (y :: l))). eapply lang_ext; [apply lang_alt; [apply lang_lit|apply IH; discriminate]|]. intros s. cbn [In]. intuition congruence.
Qed.
Lemma lang_gap : lang gapRe gap.
Proof.
  intros b m a. unfold gapRe. split.
  - intros M. remember (RStar _) as r eqn:E. induction M; inversion E; subst; [constructor|]. apply Forall_app. split; [|apply IHM2; reflexivity].
    apply matches_in in M1. destruct M1 as (c & -> & r & I & L). constructor; [|constructor]. cbn [In] in I. destruct I as [<-|[<-|[]]]; cbn [fst snd] in L; lia.
  - intros G. revert b. induction G as [|c m C G IH]; intros b; [constructor|]. change (c :: m) with ([c] ++ m). apply MStarS; [|apply IH]. apply MIn. destruct C as [-> | ->]; [exists (32, 32)|exists (9, 9)]; cbn [In fst snd]; split; auto; lia.
Qed.
Lemma exp_match l : regExpMatch expRe l = true <-> targetLine l.
Proof.
  unfold regExpMatch. rewrite regexec_spec. unfold found, expRe, targetLine.
  assert (LT : lang (RCat gapRe (RCat (altLit targetNames) (RCat gapRe (RCat (rChr 61) REps)))) (then_ gap (then_ (fun s => In s targetNames) (then_ gap (then_ (fun s => s = [61]) (fun s => s = [])))))).
  { apply lang_cat; [apply lang_gap|]. apply lang_cat; [apply lang_altLit; discriminate|]. apply lang_cat; [apply lang_gap|]. apply lang_cat; [apply lang_chr|apply lang_eps]. }
  split.
  - intros (b & m & a & -> & M). apply matches_cat in M. destruct M as (m1 & m2 & -> & M1 & M2). apply matches_beg in M1. destruct M1 as (-> & ->). apply LT in M2.
    destruct M2 as (w & t1 & -> & Gw & n & t2 & -> & In_ & w2 & t3 & -> & Gw2 & e & z & -> & -> & ->). exists w, n, w2, a. split; [|auto]. cbn [app]. rewrite <- !app_assoc. reflexivity.
  - intros (w & n & w2 & r & -> & Gw & Gw2 & In_). exists [], (w ++ n ++ w2 ++ [61]), r. split; [cbn [app]; now rewrite <- !app_assoc|]. apply matches_cat. exists [], (w ++ n ++ w2 ++ [61]). split; [reflexivity|]. split; [apply matches_beg; auto|].
    apply LT. exists w, (n ++ w2 ++ [61]). split; [reflexivity|]. split; [exact Gw|]. exists n, (w2 ++ [61]). split; [reflexivity|]. split; [exact In_|]. exists w2, [61]. split; [reflexivity|]. split; [exact Gw2|]. exists [61], []. auto.
Qed.
Lemma oldLine_spec label l l2 : oldLine expRe label l = l2 <-> replaced label l l2.
Proof.
  unfold oldLine, replaced. destruct (regExpMatch expRe l) eqn:E.
  - apply exp_match in E. split; [intros <-; left; auto|]. intros [(_ & ->)|(N & _)]; [reflexivity|contradiction].
  - assert (N : ~ targetLine l) by (intros T; apply exp_match in T; congruence). split; [intros <-; right; auto|]. intros [(T & _)|(_ & ->)]; [contradiction|reflexivity].
Qed.
Lemma replaced_inactive label l l2 : replaced label l l2 -> ~ targetLine l2.
Proof.
  intros [(_ & ->)|(N & ->)]; [|exact N]. intros (w & n & w2 & r & E & G & _ & I). destruct w as [|c w].
  - unfold targetNames in I. cbn [In] in I. repeat (destruct I as [<-|I]; [discriminate|]). destruct I.
  - inversion G as [|? ? C _]; subst. injection E as <- _. lia.
Qed.

(** * Lines *)
Lemma join_split l : joinLines (splitOn 10 l) = l.
Proof.
  remember (splitOn 10 l) as p eqn:E. symmetry in E. revert l E. induction p as [|x p IH]; intros l E; [now apply splitOn_ne in E|]. destruct p as [|y p].
  - apply splitOn_one in E. destruct E as (-> & _). reflexivity.
  - apply TimelineProof.splitOn_cons in E. destruct E as (r & -> & _ & E). cbn [joinLines]. f_equal. f_equal. now apply (IH r).
Qed.
Lemma split_join l : l <> [] -> Forall (fun x => ~ In 10 x) l -> splitOn 10 (joinLines l) = l.
Proof.
  induction l as [|x l IH]; [contradiction|]. intros _ F. inversion F as [|? ? Fx Fl]; subst. destruct l as [|y l]; [now apply splitOn_nosep|].
  cbn [joinLines]. rewrite splitOn_app by exact Fx. f_equal. apply IH; [discriminate|exact Fl].
Qed.
Lemma split_parts l : Forall (fun x => ~ In 10 x) (splitOn 10 l).
Proof.
  remember (splitOn 10 l) as p eqn:E. symmetry in E. revert l E. induction p as [|x p IH]; intros l E; [constructor|]. destruct p as [|y p].
  - apply splitOn_one in E. destruct E as (-> & N). auto.
  - apply TimelineProof.splitOn_cons in E. destruct E as (r & -> & N & E). constructor; [exact N|]. now apply (IH r).
Qed.
Lemma lines_split s ls : linesOf s ls <-> splitOn 10 s = ls.
Proof.
  split.
  - induction 1 as [l N|l t ls N H IH]; [now apply splitOn_nosep|]. rewrite splitOn_app by exact N. now rewrite IH.
  - revert s. induction ls as [|x ls IH]; intros s E; [now apply splitOn_ne in E|]. destruct ls as [|y ls].
    + apply splitOn_one in E. destruct E as (-> & N). now constructor.
    + apply TimelineProof.splitOn_cons in E. destruct E as (r & -> & N & E). constructor; [exact N|]. now apply IH.
Qed.
Lemma lines_app s ls : linesOf s ls -> forall t lt, linesOf t lt -> linesOf (s ++ 10 :: t) (ls ++ lt).
Proof. induction 1 as [l N|l s ls N H IH]; intros t lt T; [now constructor|]. rewrite <- app_assoc. cbn [app]. constructor; [exact N|]. now apply IH. Qed.
Lemma conf_lines r : Forall noLf r -> splitOn 10 (concat (map settingLine r)) = map lineOf r ++ [[]].
Proof.
  induction 1 as [|[n x] r (N1 & N2) F IH]; [reflexivity|]. cbn [map concat app]. unfold settingLine at 1, lineOf at 1. cbn [fst snd] in *.
  replace ((n ++ txt " = '" ++ x ++ txt "'" ++ [10]) ++ concat (map settingLine r)) with ((n ++ txt " = '" ++ x ++ txt "'") ++ 10 :: concat (map settingLine r)) by (rewrite <- !app_assoc; reflexivity).
  rewrite splitOn_app, IH; [reflexivity|]. rewrite !in_app_iff. intros [K|[K|[K|K]]]; [contradiction| |contradiction|]; revert K; vm_compute; intuition congruence.
Qed.

(** * Values *)
Lemma pg_length t s : pgQuoted t s -> (S (length s) <= length t)%nat /\ (In 39 (removelast t) \/ In 92 t -> (S (length s) < length t)%nat).
Proof.
  induction 1 as [|c t s N1 N2 N3 H (A & B)|t s H (A & B)|c d t s E H (A & B)]; cbn [length].
  - split; [lia|]. intros [[]|[K|[]]]; lia.
  - split; [lia|]. intros K. assert (K2 : In 39 (removelast t) \/ In 92 t); [|apply B in K2; lia]. destruct t as [|y t]; [inversion H|]. cbn [removelast] in K. destruct K as [[K|K]|[K|K]]; [lia|now left|lia|now right].
  - split; [lia|]. intros _. lia.
  - split; [lia|]. intros _. lia.
Qed.
Lemma quoted_lf s : forall v, pgQuoted (s ++ [39]) v -> ~ In 39 s -> ~ In 92 s -> ~ In 10 s.
Proof.
  induction s as [|c s IH]; intros v H N39 N92 K; [destruct K|]. cbn [app In] in *. inversion H; subst; try tauto. destruct K as [K|K]; [congruence|]. eapply IH; eauto.
Qed.
Lemma clean_quoted s : clean s <-> pgQuoted (s ++ [39]) s.
Proof.
  split.
  - induction s as [|c s IH]; intros (A & B & C); [constructor|]. cbn [app]. cbn [In] in A, B, C. constructor; [lia|lia|lia|]. apply IH. split; [|split]; tauto.
  - intros H. assert (H1 : ~ (In 39 (removelast (s ++ [39])) \/ In 92 (s ++ [39]))).
    { intros K. apply pg_length in H. destruct H as (_ & H). apply H in K. rewrite app_length in K. cbn [length] in K. lia. }
    rewrite removelast_last in H1. split; [tauto|]. split; [intros K; apply H1; right; apply in_app_iff; now left|].
    assert (N39 : ~ In 39 s) by tauto. assert (N92 : ~ In 92 s) by (intros K; apply H1; right; apply in_app_iff; now left). eapply quoted_lf; eauto.
Qed.
Lemma clean_value s v : clean s -> pgQuoted (s ++ [39]) v -> v = s.
Proof.
  revert v. induction s as [|c s IH]; intros v (A & B & C) H; cbn [app In] in *.
  - inversion H; subst; try reflexivity; try congruence.
  - inversion H; subst; try tauto. f_equal. apply IH; [|assumption]. repeat split; tauto.
Qed.

(** * Lines of what was trimmed *)
Lemma gap_noLf w : gap w -> ~ In 10 w.
Proof. intros G I. unfold gap in G. rewrite Forall_forall in G. apply G in I. lia. Qed.
Lemma white_front a : Forall white a -> ~ In 13 a -> gap a \/ exists a1 g, a = a1 ++ 10 :: g /\ gap g.
Proof.
  induction a as [|c a IH] using rev_ind; intros F N; [left; constructor|]. apply Forall_app in F. destruct F as (F & Fc). inversion Fc as [|? ? C _]; subst. rewrite in_app_iff in N. cbn [In] in N.
  destruct C as [-> |[-> |[-> | ->]]]; [| |tauto|right; exists a, []; split; [reflexivity|constructor]].
  - destruct IH as [G|(a1 & g & -> & G)]; [exact F|tauto|left; apply Forall_app; auto|]. right. exists a1, (g ++ [32]). split; [now rewrite <- app_assoc|]. apply Forall_app; auto.
  - destruct IH as [G|(a1 & g & -> & G)]; [exact F|tauto|left; apply Forall_app; auto|]. right. exists a1, (g ++ [9]). split; [now rewrite <- app_assoc|]. apply Forall_app; auto.
Qed.
Lemma white_back b : Forall white b -> ~ In 13 b -> gap b \/ exists g b1, b = g ++ 10 :: b1 /\ gap g.
Proof.
  induction b as [|c b IH]; intros F N; [left; constructor|]. inversion F as [|? ? C F2]; subst. cbn [In] in N.
  destruct C as [-> |[-> |[-> | ->]]]; [| |tauto|right; exists [], b; split; [reflexivity|constructor]].
  - destruct IH as [G|(g & b1 & -> & G)]; [exact F2|tauto|left; constructor; auto|]. right. exists (32 :: g), b1. split; [reflexivity|]. constructor; auto.
  - destruct IH as [G|(g & b1 & -> & G)]; [exact F2|tauto|left; constructor; auto|]. right. exists (9 :: g), b1. split; [reflexivity|]. constructor; auto.
Qed.
Lemma target_wide g l h : gap g -> targetLine l -> targetLine (g ++ l ++ h).
Proof.
  intros G (w & n & w2 & r & -> & W & W2 & I). exists (g ++ w), n, w2, (r ++ h). split; [rewrite <- !app_assoc; reflexivity|]. split; [apply Forall_app; auto|auto].
Qed.
(** each line of the trimmed text is part of one of the whole *)
Lemma lines_back t ls : linesOf t ls -> forall h, ~ In 10 h -> exists ls0 l, ls = ls0 ++ [l] /\ linesOf (t ++ h) (ls0 ++ [l ++ h]).
Proof.
  induction 1 as [l N|l t ls N H IH]; intros h Nh.
  - exists [], l. split; [reflexivity|]. cbn [app]. constructor. rewrite in_app_iff. tauto.
  - destruct (IH h Nh) as (ls0 & x & -> & L). exists (l :: ls0), x. split; [reflexivity|]. rewrite <- app_assoc. cbn [app]. now constructor.
Qed.
Lemma lines_front t l ls : linesOf t (l :: ls) -> forall g, ~ In 10 g -> linesOf (g ++ t) ((g ++ l) :: ls).
Proof. intros H g Ng. inversion H; subst; [constructor; rewrite in_app_iff; tauto|]. rewrite app_assoc. constructor; [rewrite in_app_iff; tauto|assumption]. Qed.
Lemma lines_in s ls : linesOf s ls -> forall l, lineIn s l <-> In l ls.
Proof. intros H l. split; [|intros I; exists ls; auto]. intros (ls2 & H2 & I). apply lines_split in H. apply lines_split in H2. congruence. Qed.
Lemma lines_exist s : exists ls, linesOf s ls.
Proof. exists (splitOn 10 s). now apply lines_split. Qed.
Lemma lines_ne s ls : linesOf s ls -> ls <> [].
Proof. intros [] ; discriminate. Qed.
Lemma trim_targets a t b : Forall white a -> Forall white b -> ~ In 13 (a ++ t ++ b) -> (forall l, lineIn (a ++ t ++ b) l -> ~ targetLine l) -> forall l, lineIn t l -> ~ targetLine l.
Proof.
  intros Fa Fb N13 H l L T. rewrite !in_app_iff in N13. destruct L as (ls & LS & I).
  assert (HB : exists ls2, linesOf (t ++ b) ls2 /\ exists m h, In m ls2 /\ m = l ++ h /\ (forall x r, ls2 = x :: r -> In m r \/ m = x)).
  { assert (K : exists h b1, (b = h \/ b = h ++ 10 :: b1) /\ gap h) by (destruct (white_back b Fb) as [G|(g & b1 & -> & G)]; [tauto|exists b, []; auto|exists g, b1; auto]).
    destruct K as (h & b1 & Eb & G). destruct (lines_back t ls LS h (gap_noLf _ G)) as (ls0 & x & -> & L2).
    assert (L3 : exists tl, linesOf (t ++ b) ((ls0 ++ [x ++ h]) ++ tl)).
    { destruct Eb as [-> | ->]; [exists []; now rewrite app_nil_r|]. destruct (lines_exist b1) as (lb & Lb). exists lb. rewrite app_assoc. now apply lines_app. }
    destruct L3 as (tl & L3). eexists. split; [exact L3|]. apply in_app_iff in I. destruct I as [I|[<-|[]]].
    - exists l, []. split; [rewrite !in_app_iff; auto|]. split; [now rewrite app_nil_r|]. intros y r E. assert (Q : In l (y :: r)) by (rewrite <- E, !in_app_iff; auto). destruct Q; auto.
    - exists (x ++ h), h. split; [rewrite !in_app_iff; cbn [In]; auto|]. split; [reflexivity|]. intros y r E. assert (Q : In (x ++ h) (y :: r)) by (rewrite <- E, !in_app_iff; cbn [In]; auto). destruct Q; auto. }
  destruct HB as (ls2 & L2 & m & h & Im & -> & _). destruct ls2 as [|y ls2]; [destruct Im|].
  assert (K : exists g a1, (a = g \/ a = a1 ++ 10 :: g) /\ gap g) by (destruct (white_front a Fa) as [G|(a1 & g & -> & G)]; [tauto|exists a, []; auto|exists g, a1; auto]).
  destruct K as (g & a1 & Ea & G). pose proof (lines_front _ _ _ L2 g (gap_noLf _ G)) as L3.
  assert (L4 : exists hd, linesOf (a ++ t ++ b) (hd ++ (g ++ y) :: ls2)).
  { destruct Ea as [-> | ->]; [exists []; exact L3|]. destruct (lines_exist a1) as (la & La). exists la. rewrite <- app_assoc. cbn [app]. now apply lines_app. }
  destruct L4 as (hd & L4). destruct Im as [Im|Im]; [rewrite Im in L4; clear Im|].
  - apply (H (g ++ l ++ h)); [|now apply target_wide]. eexists. split; [exact L4|]. rewrite in_app_iff. right. now left.
  - apply (H (l ++ h)); [|apply (target_wide [] l h); [constructor|exact T]]. eexists. split; [exact L4|]. rewrite in_app_iff. right. now right.
Qed.

(** * The file *)
Lemma old_lines label s : ~ In 10 label -> exists ol new, linesOf s ol /\ Forall2 (replaced label) ol new /\ linesOf (joinLines (map (oldLine expRe label) (splitOn 10 s))) new.
Proof.
  intros NL. pose proof (split_parts s) as SP. pose proof (splitOn_ne 10 s) as NE. exists (splitOn 10 s), (map (oldLine expRe label) (splitOn 10 s)). split; [now apply lines_split|]. split.
  - clear. induction (splitOn 10 s) as [|x l IH]; constructor; [now apply oldLine_spec|exact IH].
  - apply lines_split. apply split_join; [intros K; apply map_eq_nil in K; contradiction|]. apply Forall_map. eapply Forall_impl; [|exact SP]. intros x Nx. unfold oldLine.
    destruct (regExpMatch expRe x); [|exact Nx]. rewrite !in_app_iff. intros [K|[K|[K|K]]]; [|contradiction| |contradiction]; revert K; vm_compute; intuition congruence.
Qed.
Lemma replaced_all label ol new : Forall2 (replaced label) ol new -> forall l, In l new -> ~ targetLine l.
Proof. induction 1 as [|x y ol new R F IH]; intros l []; [subst y; eapply replaced_inactive; exact R|now apply IH]. Qed.
Definition headerLine (label : str) : str := txt "# Recovery settings generated by pgBackRest restore on " ++ label.
Lemma conf_text o v label c : recoveryConf o v label = Ok c -> ~ In 10 label -> exists r, recoveryOption o v = Ok r /\ (Forall noLf r -> linesOf c (headerLine label :: map lineOf r ++ [[]])).
Proof.
  unfold recoveryConf. destruct (recoveryOption o v) as [r| |]; [|discriminate..]. cbn [bind]. intros H NL. exists r. split; [reflexivity|]. intros F.
  assert (E : c = headerLine label ++ 10 :: concat (map settingLine r)) by (inversion H as [H1]; unfold headerLine; rewrite <- app_assoc; reflexivity). rewrite E. constructor; [|apply lines_split; now apply conf_lines].
  unfold headerLine. rewrite in_app_iff. intros [K|K]; [|contradiction]. revert K. vm_compute. intuition congruence.
Qed.
Lemma typeIs_eq a b : typeIs a b = true <-> a = b.
Proof. split; [|intros ->; apply strEqb_refl]. destruct a, b; vm_compute; congruence. Qed.
Lemma typeIs_ne a b : typeIs a b = false <-> a <> b.
Proof. rewrite <- (typeIs_eq a b). destruct (typeIs a b); intuition congruence. Qed.
Lemma header_noLf label : ~ In 10 label -> ~ targetLine (headerLine label).
Proof.
  intros _ (w & n & w2 & r & E & G & _ & I). unfold headerLine in E. destruct w as [|c w].
  - unfold targetNames in I. cbn [In] in I. repeat (destruct I as [<-|I]; [discriminate|]). destruct I.
  - inversion G as [|? ? C _]; subst. injection E as <- _. lia.
Qed.
Lemma empty_target : ~ targetLine [].
Proof. intros (w & n & w2 & r & E & _). symmetry in E. apply app_eq_nil in E. destruct E as (_ & E). apply app_eq_nil in E. destruct E as (_ & E). apply app_eq_nil in E. destruct E as (_ & E). discriminate. Qed.
Definition standbyGiven (o : opts) : Prop := exists kv k x, oUser o = Some kv /\ In (k, x) kv /\ sameName k (txt "standby_mode").
Lemma standby_spec o : existsb (fun p => strEqb (underscores (fst p)) (txt "standby_mode")) (match oUser o with Some kv => kv | None => [] end) = true <-> standbyGiven o.
Proof.
  rewrite existsb_exists. unfold standbyGiven. split.
  - intros ([k x] & I & E). apply strEqb_eq in E. apply und_same in E. destruct (oUser o) as [kv|]; [|destruct I]. exists kv, k, x. auto.
  - intros (kv & k & x & U & I & S). rewrite U. exists (k, x). split; [exact I|]. apply strEqb_eq. now apply und_same.
Qed.
(** Files of 12 and later *)
Lemma auto_spec o v label old w : 120000 <= v -> recovers o -> recoveryWrite o v label old = Ok w ->
  wConf w = None /\ (wStandby w = true <-> oType o = TStandby) /\ (wRecovery w = true <-> oType o <> TStandby) /\ ~ standbyGiven o /\
  exists c o2, recoveryConf o v label = Ok c /\ oldContent o label old = Ok o2 /\ wAuto w = Some (o2 ++ c).
Proof.
  intros V (R1 & R2). unfold recoveryWrite, pgVersion12. apply typeIs_ne in R1 as T1. apply typeIs_ne in R2 as T2. rewrite T2. destruct (Z.leb_spec 120000 v); [|lia]. unfold writeAutoConf. rewrite T1.
  destruct (oldContent o label old) as [o2| |]; [|discriminate..]. cbn [bind]. destruct (existsb _ _) eqn:E; [discriminate|]. destruct (recoveryConf o v label) as [c| |]; [|discriminate..]. cbn [bind negb]. intros [= <-]. cbn [wAuto wConf wStandby wRecovery].
  split; [reflexivity|]. split; [apply typeIs_eq|]. split; [rewrite Bool.andb_true_r, Bool.negb_true_iff; apply typeIs_ne|]. split; [intros K; apply standby_spec in K; congruence|]. exists c, o2. auto.
Qed.
Lemma cz_sub s c : In c (cz s) -> In c s.
Proof. intros I. destruct (cz_spec s) as (_ & [H|(u & H)]); [now rewrite H|]. rewrite H. apply in_app_iff. now left. Qed.
