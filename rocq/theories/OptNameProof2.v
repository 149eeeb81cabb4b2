(** Names of options *)
From Coq Require Import Lia Sorting.Sorted.
From Verif Require Import Base Str ConvertModel NumModel ListModel OptNameModel OptNameSpec OptNameProof.
Open Scope Z_scope.
Open Scope list_scope.

Lemma begins_spec a p : strBeginsWith a p = true <-> exists e, a = p ++ e.
Proof.
  unfold strBeginsWith. split.
  - intros H. apply strEqb_eq in H. exists (skipn (length p) a). rewrite <- H at 1. rewrite firstn_skipn. reflexivity.
  - intros (e & ->). rewrite firstn_app, Nat.sub_diag, firstn_all, firstn_O, app_nil_r. apply strEqb_refl.
Qed.
Lemma begins_false a p : (forall e, a <> p ++ e) -> strBeginsWith a p = false.
Proof. intros H. destruct (strBeginsWith a p) eqn:E; [|reflexivity]. apply begins_spec in E. destruct E as (e & E). exfalso. exact (H e E). Qed.
Lemma key_no_prefix q : (forall c, In c q -> ~ 48 <= c <= 57) -> forall b ds t e, ~ In 45 b -> digitsOnly ds -> ds <> [] -> b ++ ds ++ t <> (q ++ [45]) ++ e.
Proof.
  induction q as [|c q IH]; intros Hq b ds t e Hb D N E.
  - destruct b as [|x b]; cbn in E.
    + destruct ds as [|d ds]; [congruence|]. injection E as -> _. specialize (D 45 (or_introl eq_refl)). lia.
    + injection E as -> _. apply Hb. left. reflexivity.
  - destruct b as [|x b]; cbn in E.
    + destruct ds as [|d ds]; [congruence|]. injection E as -> _. apply (Hq c (or_introl eq_refl)). apply D. left. reflexivity.
    + injection E as -> E. refine (IH (fun y Hy => Hq y (or_intror Hy)) b ds t e (fun Q => Hb (or_intror Q)) D N E).
Qed.

Lemma parse_prefix neg rst s : neg && rst = false -> (forall e, s <> prefixNegate ++ e) -> (forall e, s <> prefixReset ++ e) ->
  let c := prefixOf neg rst ++ s in
  strBeginsWith c prefixNegate = neg /\ negb neg && strBeginsWith c prefixReset = rst /\ (if neg then skipn 3 c else if rst then skipn 6 c else c) = s.
Proof.
  intros X H1 H2 c. subst c. unfold prefixOf. destruct neg, rst; try discriminate X.
  - split; [apply begins_spec; exists s; reflexivity|]. split; reflexivity.
  - split; [|split; [apply begins_spec; exists s; reflexivity|reflexivity]]. apply begins_false. intros e E. discriminate E.
  - cbn [app negb andb]. split; [apply begins_false; exact H1|]. split; [apply begins_false; exact H2|reflexivity].
Qed.

(** The keys 1 to 256 as text *)
Fixpoint upto (n : nat) : list Z := match n with O => [] | S n => upto n ++ [Z.of_nat n] end.
Lemma upto_in n k : 0 <= k < Z.of_nat n -> In k (upto n).
Proof.
  induction n as [|n IH]; intros H; [lia|]. cbn [upto]. apply in_or_app. destruct (Z.eq_dec k (Z.of_nat n)) as [->|N]; [right; left; reflexivity|]. left. apply IH. lia.
Qed.
Definition keyTextOk (k : Z) : bool :=
  let s := cvtUIntToZ (k + 1) in forallb isDigit s && negb (length s =? 0)%nat && (decimal s =? k + 1) && (length s <=? 3)%nat.
Lemma keyText_all : forallb keyTextOk (upto 256) = true.
Proof. vm_compute. reflexivity. Qed.
Lemma keyText k : 0 <= k < 256 -> let s := cvtUIntToZ (k + 1) in digitsOnly s /\ s <> [] /\ decimal s = k + 1 /\ (length s <= 3)%nat.
Proof.
  intros H. pose proof (proj1 (forallb_forall _ _) keyText_all k (upto_in 256 k H)) as Q. unfold keyTextOk in Q. cbv zeta in *.
  apply Bool.andb_true_iff in Q. destruct Q as [Q Q4]. apply Bool.andb_true_iff in Q. destruct Q as [Q Q3]. apply Bool.andb_true_iff in Q. destruct Q as [Q1 Q2].
  split; [|split; [|split]].
  - intros c Hc. apply isDigit_spec. exact (proj1 (forallb_forall _ _) Q1 c Hc).
  - intros E. rewrite E in Q2. discriminate Q2.
  - apply Z.eqb_eq. exact Q3.
  - apply Nat.leb_le. exact Q4.
Qed.

Section Tables.
Variable rules : list rule.
Variable deps : list deprecate.
Variable groups : list str.
Hypothesis WF : wfTables rules deps groups.

Lemma find_at pm im i r ix : nth_error rules i = Some r -> findOption rules deps pm im (rName r) ix = Ok (Some (i, false)).
Proof.
  intros E. unfold findOption. rewrite (search_at (map rName rules) i (rName r) (wfSorted _ _ _ WF)); [reflexivity|]. rewrite nth_error_map, E. reflexivity.
Qed.

Theorem parse_exact pm im i r k neg rst s :
  nth_error rules i = Some r -> 0 <= k < 256 -> (rGroup r = None -> k = 0) -> (neg = true -> rNegate r = true) -> (rst = true -> rReset r = true) -> neg && rst = false ->
  keyIdxName rules groups i k = Ok s -> (length (prefixOf neg rst ++ s) <= 64)%nat ->
  exists dep, parseOption rules deps pm im (prefixOf neg rst ++ s) = Ok (Some (mkOptres i k neg rst dep (rMulti r))) /\ (rGroup r <> None -> dep = false).
Proof.
  intros E Hk Hg Hn Hr X Es HL. pose proof (nth_error_In _ _ E) as Hin. unfold keyIdxName in Es. rewrite E in Es.
  assert (K : (forall e, s <> prefixNegate ++ e) /\ (forall e, s <> prefixReset ++ e) /\ takeKey s = Ok (k, match rGroup r with Some _ => true | None => false end, rName r)).
  { destruct (rGroup r) as [g|] eqn:G.
    - destruct (wfGroups _ _ _ WF r g Hin G) as (gn & e & Eg & En & S). rewrite Eg in Es. injection Es as <-.
      destruct (keyText k Hk) as (D & N & Dk & _). rewrite En, skipn_app, skipn_all, Nat.sub_diag. cbn [skipn app].
      split; [|split].
      + intros e'. change prefixNegate with ([110; 111] ++ [45]). apply key_no_prefix; [|apply S|exact D|exact N]. cbn. intros c [<-|[<-|[]]]; lia.
      + intros e'. change prefixReset with ([114; 101; 115; 101; 116] ++ [45]). apply key_no_prefix; [|apply S|exact D|exact N]. cbn. intros c [<-|[<-|[<-|[<-|[<-|[]]]]]]; lia.
      + assert (M : decimal (cvtUIntToZ (k + 1)) mod two32 = k + 1) by (rewrite Dk; apply Z.mod_small; unfold two32; lia).
        rewrite takeKey_with; [|exact S|exact D|exact N|rewrite M; lia]. rewrite M. replace (k + 1 - 1) with k by lia. reflexivity.
    - injection Es as <-. destruct (wfNames _ _ _ WF r Hin) as (P & N1 & N2). split; [exact N1|]. split; [exact N2|]. rewrite (Hg eq_refl). apply takeKey_plain. exact P. }
  destruct K as (K1 & K2 & K3). destruct (parse_prefix neg rst s X K1 K2) as (P1 & P2 & P3).
  unfold parseOption. replace (nameSizeMax <? length (prefixOf neg rst ++ s))%nat with false by (symmetry; apply Nat.ltb_ge; exact HL).
  cbv zeta. rewrite P1. rewrite P2, P3, K3. cbn [bind]. rewrite (find_at pm im i r _ E). cbn [bind].
  unfold checkOption. rewrite E.
  replace (neg && negb (rNegate r)) with false by (destruct neg; [rewrite Hn by reflexivity|]; reflexivity).
  replace (rst && negb (rReset r)) with false by (destruct rst; [rewrite Hr by reflexivity|]; reflexivity).
  cbv zeta. cbn [orb]. destruct (rGroup r) as [g|]; cbn [negb andb]; rewrite ?Bool.andb_false_r.
  - eexists. split; [reflexivity|]. intros _. reflexivity.
  - eexists. split; [reflexivity|]. congruence.
Qed.

Lemma find_sound pm im name ix i dep : findOption rules deps pm im name ix = Ok (Some (i, dep)) ->
  (dep = false /\ exists r, nth_error rules i = Some r /\
     (rName r = name \/ pm = true /\ strBeginsWith (rName r) name = true /\ forall j r', nth_error rules j = Some r' -> strBeginsWith (rName r') name = true -> j = i)) \/
  (dep = true /\ (forall r, In r rules -> rName r <> name) /\ exists j d, nth_error deps j = Some d /\ dId d = i /\ (ix = true -> dIndexed d = true) /\ (ix = false -> im = false -> dUnindexed d = true) /\
     (dName d = name \/ pm = true /\ strBeginsWith (dName d) name = true /\ forall j' d', nth_error deps j' = Some d' -> strBeginsWith (dName d') name = true -> j' = j)).
Proof.
  unfold findOption. destruct (search_sound (map rName rules) name (wfSorted _ _ _ WF)) as (r1 & -> & H1). cbn [bind]. destruct r1 as [i1|].
  { intros E. injection E as <- <-. left. split; [reflexivity|]. rewrite nth_error_map in H1. destruct (nth_error rules i1) as [r|] eqn:E; [|discriminate]. injection H1 as <-.
    exists r. split; [reflexivity|]. left. reflexivity. }
  destruct (if pm then onePartial (map rName rules) name else None) as [i1|] eqn:P.
  { intros E. injection E as <- <-. left. split; [reflexivity|]. destruct pm; [|discriminate]. apply onePartial_spec in P. destruct P as (n & P1 & P2 & P3).
    rewrite nth_error_map in P1. destruct (nth_error rules i1) as [r|] eqn:E; [|discriminate]. injection P1 as <-. exists r. split; [reflexivity|]. right. split; [reflexivity|]. split; [exact P2|].
    intros j r' Hj Hb. apply (P3 j (rName r')); [rewrite nth_error_map, Hj; reflexivity|exact Hb]. }
  clear P. destruct (search_sound (map dName deps) name (wfSortedDep _ _ _ WF)) as (r2 & -> & H2). cbn [bind].
  set (r := match r2 with Some j => Some j | None => _ end).
  assert (R : match r with None => True | Some j => exists d, nth_error deps j = Some d /\
     (dName d = name \/ pm = true /\ strBeginsWith (dName d) name = true /\ forall j' d', nth_error deps j' = Some d' -> strBeginsWith (dName d') name = true -> j' = j) end).
  { unfold r. destruct r2 as [j|].
    - rewrite nth_error_map in H2. destruct (nth_error deps j) as [d|] eqn:E; [|discriminate]. injection H2 as <-. exists d. split; [reflexivity|]. left. reflexivity.
    - destruct pm; [|exact I]. destruct (onePartial (map dName deps) name) as [j|] eqn:P; [|exact I]. apply onePartial_spec in P. destruct P as (n & P1 & P2 & P3).
      rewrite nth_error_map in P1. destruct (nth_error deps j) as [d|] eqn:E; [|discriminate]. injection P1 as <-. exists d. split; [reflexivity|]. right. split; [reflexivity|]. split; [exact P2|].
      intros j' r' Hj Hb. apply (P3 j' (dName r')); [rewrite nth_error_map, Hj; reflexivity|exact Hb]. }
  destruct r as [j|]; [|discriminate]. destruct R as (d & Ed & Hd). rewrite Ed.
  destruct (ix && negb (dIndexed d)) eqn:B1; [discriminate|]. destruct (negb ix && negb (dUnindexed d) && negb im) eqn:B2; [discriminate|].
  intros E. injection E as <- <-. right. split; [reflexivity|]. split.
  - intros r' Hr Q. apply H1. apply in_map_iff. exists r'. split; [exact Q|exact Hr].
  - exists j, d. split; [exact Ed|]. split; [reflexivity|]. split; [|split; [|exact Hd]].
    + intros ->. destruct (dIndexed d); [reflexivity|discriminate B1].
    + intros -> ->. destruct (dUnindexed d); [reflexivity|discriminate B2].
Qed.

Lemma prefix_split c : let neg := strBeginsWith c prefixNegate in let rst := negb neg && strBeginsWith c prefixReset in
  c = prefixOf neg rst ++ (if neg then skipn 3 c else if rst then skipn 6 c else c).
Proof.
  cbv zeta. destruct (strBeginsWith c prefixNegate) eqn:E1; cbn [negb andb].
  - apply begins_spec in E1. destruct E1 as (e & ->). reflexivity.
  - destruct (strBeginsWith c prefixReset) eqn:E2; [|reflexivity]. apply begins_spec in E2. destruct E2 as (e & ->). reflexivity.
Qed.

Theorem parse_sound pm im c o : parseOption rules deps pm im c = Ok (Some o) ->
  (length c <= 64)%nat /\ oNegate o && oReset o = false /\
  (exists r, nth_error rules (oId o) = Some r /\ (oNegate o = true -> rNegate r = true) /\ (oReset o = true -> rReset r = true) /\ oMulti o = rMulti r /\
             (oKeyIdx o <> 0 -> grouped r) /\ 0 <= oKeyIdx o < 256) /\
  exists written name, c = prefixOf (oNegate o) (oReset o) ++ written /\ candidateName rules deps pm name (oId o) /\
    (written = name /\ plain name /\ oKeyIdx o = 0 \/
     exists ds, withKey name ds written /\ ds <> [] /\ digitsOnly ds /\ oKeyIdx o + 1 = decimal ds mod two32).
Proof.
  unfold parseOption. destruct (Nat.ltb_spec nameSizeMax (length c)) as [L|L]; [discriminate|]. pose proof (prefix_split c) as C. cbv zeta in C |- *.
  set (neg := strBeginsWith c prefixNegate) in *. assert (X : neg && (negb neg && strBeginsWith c prefixReset) = false) by (destruct neg; reflexivity).
  set (rst := negb neg && strBeginsWith c prefixReset) in *. set (w := if neg then skipn 3 c else if rst then skipn 6 c else c) in *. clearbody neg rst w. 
  destruct (takeKey w) as [[[k ix] name]| |] eqn:T; try discriminate. cbn [bind]. apply takeKey_sound in T.
  destruct (findOption rules deps pm im name ix) as [[[i dep]|]| |] eqn:F; try discriminate. cbn [bind]. apply find_sound in F.
  destruct (checkOption rules im neg rst ix k i dep) as [o'| |] eqn:K; try discriminate. cbn [bind]. intros E. injection E as <-.
  assert (Q : exists r, nth_error rules i = Some r /\ oId o' = i /\ oNegate o' = neg /\ oReset o' = rst /\ oKeyIdx o' = k /\ oMulti o' = rMulti r /\ (neg = true -> rNegate r = true) /\ (rst = true -> rReset r = true) /\
              (ix = true -> dep = false -> grouped r)).
  { unfold checkOption in K. destruct (nth_error rules i) as [r|]; [|discriminate]. exists r. split; [reflexivity|].
    destruct (neg && negb (rNegate r)) eqn:B1; [discriminate|]. destruct (rst && negb (rReset r)) eqn:B2; [discriminate|]. cbv zeta in K.
    destruct (negb (dep || negb ix && rDeprecateMatch r) && ix && negb _) eqn:B3; [discriminate|]. 
    destruct (negb (dep || negb ix && rDeprecateMatch r) && negb ix && _ && negb im) eqn:B4; [discriminate|]. injection K as <-. cbn.
    repeat (split; [reflexivity|]). split; [intros ->; destruct (rNegate r); [reflexivity|discriminate B1]|]. split; [intros ->; destruct (rReset r); [reflexivity|discriminate B2]|].
    intros -> ->. unfold grouped. cbn in B3. destruct (rGroup r); [discriminate|discriminate B3]. }
  destruct Q as (r & Er & -> & -> & -> & -> & -> & Q1 & Q2 & Q3).
  assert (Kr : 0 <= k < 256 /\ (ix = false -> k = 0)).
  { destruct ix; [destruct T as (ds & _ & _ & _ & _ & B); split; [exact B|discriminate]|destruct T as (-> & _); split; [lia|reflexivity]]. }
  split; [exact L|]. split; [exact X|]. split.
  - exists r. split; [exact Er|]. split; [exact Q1|]. split; [exact Q2|]. split; [reflexivity|]. split; [|apply Kr].
    intros N. destruct ix; [|exfalso; apply N; apply Kr; reflexivity]. destruct F as [(-> & _)|(-> & _ & j & d & Ed & Hi & Hx & _)]; [apply Q3; reflexivity|].
    destruct (wfIds _ _ _ WF d (nth_error_In _ _ Ed)) as (r' & Er' & Hg). rewrite Hi, Er in Er'. injection Er' as <-. apply Hg. apply Hx. reflexivity.
  - exists w, name. split; [exact C|]. split.
    + unfold candidateName, namesOption. destruct F as [(-> & r0 & E0 & [H0|(H0 & H1 & H2)])|(-> & H3 & j & d & Ed & Hi & _ & _ & [H0|(H0 & H1 & H2)])].
      * left. left. exists r0. split; assumption.
      * destruct (in_dec (list_eq_dec Z.eq_dec) name (map rName rules)) as [I1|I1].
        -- apply In_nth_error in I1. destruct I1 as (j & Hj). rewrite nth_error_map in Hj. destruct (nth_error rules j) as [rj|] eqn:Ej; [|discriminate]. injection Hj as Hj.
           assert (j = i) as -> by (apply (H2 j rj Ej); rewrite Hj; apply begins_spec; exists []; rewrite app_nil_r; reflexivity).
           left. left. exists rj. split; assumption.
        -- right. split; [exact H0|]. split; [intros (x & X1 & X2); apply I1; apply in_map_iff; exists x; split; assumption|]. left. exists r0. split; [exact E0|]. split; assumption.
      * left. right. exists d. split; [apply (nth_error_In _ _ Ed)|]. split; assumption.
      * right. split; [exact H0|]. split; [intros (x & X1 & X2); exact (H3 x X1 X2)|]. right. exists j, d. split; [exact Ed|]. split; [exact Hi|]. split; assumption.
    + destruct ix.
      * right. destruct T as (ds & T1 & T2 & T3 & T4 & T5). exists ds. split; [exact T1|]. split; [exact T2|]. split; [exact T3|]. lia.
      * left. destruct T as (T1 & T2 & T3). split; [symmetry; exact T2|]. split; [exact T3|exact T1].
Qed.
End Tables.

(** * Commands *)
Lemma firstBegins_spec names name : forall i, match firstBegins i names name with
  | Some j => exists n, (i <= j)%nat /\ nth_error names (j - i) = Some n /\ strBeginsWith n name = true /\ forall k m, (k < j - i)%nat -> nth_error names k = Some m -> strBeginsWith m name = false
  | None => forall n, In n names -> strBeginsWith n name = false
  end.
Proof.
  induction names as [|n names IH]; intros i; cbn [firstBegins]; [intros n []|]. destruct (strBeginsWith n name) eqn:E.
  - exists n. rewrite Nat.sub_diag. split; [lia|]. split; [reflexivity|]. split; [exact E|]. intros; lia.
  - specialize (IH (S i)). destruct (firstBegins (S i) names name) as [j|].
    + destruct IH as (m & H1 & H2 & H3 & H4). exists m. split; [lia|]. replace (j - i)%nat with (S (j - S i)) by lia. split; [exact H2|]. split; [exact H3|].
      intros k x Hk Hx. destruct k as [|k]; [injection Hx as <-; exact E|]. apply (H4 k x); [lia|exact Hx].
    + intros m [<-|Hm]; [exact E|apply IH; exact Hm].
Qed.
Lemma beforeColon_none s : ~ In 58 s -> beforeColon s = s.
Proof.
  induction s as [|c s IH]; intros H; cbn [beforeColon]; [reflexivity|]. destruct (Z.eqb_spec c 58) as [->|N]; [exfalso; apply H; left; reflexivity|].
  rewrite IH; [reflexivity|]. intros Q. apply H. right. exact Q.
Qed.
Lemma beforeColon_at s r : ~ In 58 s -> beforeColon (s ++ 58 :: r) = s.
Proof.
  induction s as [|c s IH]; intros H; cbn [app beforeColon]; [reflexivity|]. destruct (Z.eqb_spec c 58) as [->|N]; [exfalso; apply H; left; reflexivity|].
  rewrite IH; [reflexivity|]. intros Q. apply H. right. exact Q.
Qed.
Lemma command_exact commands i name : StronglySorted slt commands -> nth_error commands i = Some name -> firstBegins 0 commands name = Some i.
Proof.
  intros S E. pose proof (firstBegins_spec commands name 0) as H. destruct (firstBegins 0 commands name) as [j|].
  - destruct H as (n & _ & H1 & H2 & H3). rewrite Nat.sub_0_r in *. f_equal. destruct (Nat.lt_total i j) as [L|[L|L]]; [|congruence|].
    + exfalso. specialize (H3 i name L E). assert (strBeginsWith name name = true) by (apply begins_spec; exists []; rewrite app_nil_r; reflexivity). congruence.
    + exfalso. apply begins_spec in H2. destruct H2 as (e & ->).
      assert (Q : slt (name ++ e) name) by (exact (ListProof.ss_nth _ commands S j i _ _ L H1 E)). clear - Q.
      unfold slt in Q. revert Q. induction name as [|c name IH]; cbn; [destruct e; discriminate|]. rewrite Z.compare_refl. exact IH.
  - exfalso. apply nth_error_In in E. specialize (H name E). assert (strBeginsWith name name = true) by (apply begins_spec; exists []; rewrite app_nil_r; reflexivity). congruence.
Qed.

(** * A table is well formed if it passes a check *)
Fixpoint sortedb (l : list str) : bool := match l with a :: (b :: _) as r => strLtb a b && sortedb r | _ => true end.
Lemma sortedb_spec l : sortedb l = true -> StronglySorted slt l.
Proof.
  intros H. apply Sorted_StronglySorted; [exact slt_trans|]. induction l as [|a l IH]; [constructor|]. destruct l as [|b l]; [repeat constructor|].
  cbn [sortedb] in H. apply Bool.andb_true_iff in H. destruct H as [H1 H2]. constructor; [exact (IH H2)|]. constructor. apply strLtb_lt. exact H1.
Qed.
Definition nameb (n : str) : bool :=
  match takeKey n with Ok (_, false, _) => true | _ => false end && negb (strBeginsWith n prefixNegate) && negb (strBeginsWith n prefixReset).
Lemma nameb_spec n : nameb n = true -> wfName n.
Proof.
  unfold nameb. intros H. apply Bool.andb_true_iff in H. destruct H as [H H3]. apply Bool.andb_true_iff in H. destruct H as [H1 H2]. split; [|split].
  - destruct (takeKey n) as [[[k ix] name]| |] eqn:T; try discriminate. destruct ix; [discriminate|]. apply takeKey_sound in T. destruct T as (_ & -> & P). exact P.
  - intros e E. assert (strBeginsWith n prefixNegate = true) by (apply begins_spec; exists e; exact E). rewrite H in H2. discriminate.
  - intros e E. assert (strBeginsWith n prefixReset = true) by (apply begins_spec; exists e; exact E). rewrite H in H3. discriminate.
Qed.
Definition stemb (b : str) : bool := match rev b with [] => false | c :: _ => negb (isDigit c) end && forallb (fun c => negb (c =? 45)) b.
Lemma stemb_spec b : stemb b = true -> stem b.
Proof.
  unfold stemb. intros H. apply Bool.andb_true_iff in H. destruct H as [H1 H2]. split; [intros ->; discriminate|]. split.
  - intros K. pose proof (proj1 (forallb_forall _ _) H2 45 K) as Q. discriminate Q.
  - intros x c -> K. rewrite rev_app_distr in H1. cbn in H1. apply isDigit_spec in K. rewrite K in H1. discriminate.
Qed.
Definition tablesb (rules : list rule) (deps : list deprecate) (groups : list str) : bool :=
  sortedb (map rName rules) && sortedb (map dName deps) && forallb nameb (map rName rules) && forallb nameb (map dName deps) &&
  forallb (fun r => match rGroup r with None => true | Some g => match nth_error groups g with None => false | Some gn => stemb gn && strBeginsWith (rName r) (gn ++ [45]) end end) rules &&
  forallb (fun d => match nth_error rules (dId d) with None => false | Some r => negb (dIndexed d) || match rGroup r with Some _ => true | None => false end end) deps.
Lemma tablesb_spec rules deps groups : tablesb rules deps groups = true -> wfTables rules deps groups.
Proof.
  unfold tablesb. intros H. repeat (apply Bool.andb_true_iff in H; destruct H as [H ?]).
  constructor.
  - apply sortedb_spec. assumption.
  - apply sortedb_spec. assumption.
  - intros r Hr. apply nameb_spec. refine (proj1 (forallb_forall _ _) H3 _ _). apply in_map. exact Hr.
  - intros d Hd. apply nameb_spec. refine (proj1 (forallb_forall _ _) H2 _ _). apply in_map. exact Hd.
  - intros r g Hr G. pose proof (proj1 (forallb_forall _ _) H1 r Hr) as Q. cbn beta in Q. rewrite G in Q. destruct (nth_error groups g) as [gn|]; [|discriminate].
    apply Bool.andb_true_iff in Q. destruct Q as [Q1 Q2]. apply begins_spec in Q2. destruct Q2 as (e & Q2). exists gn, e. split; [reflexivity|]. split; [|apply stemb_spec; exact Q1].
    rewrite Q2, <- app_assoc. reflexivity.
  - intros d Hd. match goal with K : forallb (fun d => match nth_error rules (dId d) with _ => _ end) deps = true |- _ => pose proof (proj1 (forallb_forall _ _) K d Hd) as Q end. cbn beta in Q.
    destruct (nth_error rules (dId d)) as [r|]; [|discriminate]. exists r. split; [reflexivity|]. intros E. rewrite E in Q. unfold grouped. destruct (rGroup r); discriminate.
Qed.
