(** Lemmas on adding ranges. *)
From Verif Require Import Base Str MultiModel MultiSpec MultiProof.
Open Scope Z_scope.

Lemma bytes_after d : forall at_ off e, off <= at_ -> bytesIn d at_ off (Some e) = firstn (Z.to_nat (e - at_)) d.
Proof.
  induction d as [|b d IH]; intros at_ off e L; cbn [bytesIn]; [now rewrite firstn_nil|]. rewrite IH by lia. destruct (at_ <? e) eqn:X.
  - replace (off <=? at_) with true by lia. replace (Z.to_nat (e - at_)) with (S (Z.to_nat (e - (at_ + 1)))) by lia. reflexivity.
  - rewrite andb_false_r. replace (Z.to_nat (e - at_)) with 0%nat by lia. replace (Z.to_nat (e - (at_ + 1))) with 0%nat by lia. reflexivity.
Qed.
Lemma bytes_slice d : forall at_ off e, at_ <= off <= e -> bytesIn d at_ off (Some e) = firstn (Z.to_nat (e - off)) (skipn (Z.to_nat (off - at_)) d).
Proof.
  induction d as [|b d IH]; intros at_ off e L; [now rewrite skipn_nil, firstn_nil|]. destruct (Z.eq_dec at_ off) as [->|N].
  - rewrite bytes_after by lia. now rewrite Z.sub_diag.
  - cbn [bytesIn]. rewrite IH by lia. replace (off <=? at_) with false by lia. replace (Z.to_nat (off - at_)) with (S (Z.to_nat (off - (at_ + 1)))) by lia. reflexivity.
Qed.
Lemma bytes_all d : forall at_ off, off <= at_ -> bytesIn d at_ off None = d.
Proof. induction d as [|b d IH]; intros at_ off L; [reflexivity|]. cbn [bytesIn]. rewrite IH by lia. now replace (off <=? at_) with true by lia. Qed.
Lemma bytes_from d : forall at_ off, at_ <= off -> bytesIn d at_ off None = skipn (Z.to_nat (off - at_)) d.
Proof.
  induction d as [|b d IH]; intros at_ off L; [now rewrite skipn_nil|]. destruct (Z.eq_dec at_ off) as [->|N]; [rewrite bytes_all by lia; now rewrite Z.sub_diag|].
  cbn [bytesIn]. rewrite IH by lia. replace (off <=? at_) with false by lia. replace (Z.to_nat (off - at_)) with (S (Z.to_nat (off - (at_ + 1)))) by lia. reflexivity.
Qed.

Definition slice (c : list Z) (r : rng) : list Z := firstn (Z.to_nat (rLim r)) (skipn (Z.to_nat (rOff r)) c).
Lemma left_slices c rs : forall a e, chain (a :: rs) -> rOff (last (a :: rs) (mkRng 0 0)) + rLim (last (a :: rs) (mkRng 0 0)) = e ->
  rOff a + rLim a <= e /\ left (a :: rs) 0 (firstn (Z.to_nat (e - rOff a)) (skipn (Z.to_nat (rOff a)) c)) = concat (map (slice c) (a :: rs)).
Proof.
  induction rs as [|b rs IH]; intros a e C E.
  - cbn [last] in E. split; [lia|]. cbn [left map concat]. rewrite app_nil_r. unfold slice. f_equal. cbn [chain] in C. lia.
  - change (last (a :: b :: rs) (mkRng 0 0)) with (last (b :: rs) (mkRng 0 0)) in E. cbn [chain] in C. destruct C as (Ca & Cl & Ce & Cb & C). destruct (IH b e C E) as (LE & EQ). destruct C as (Cb1 & Cb2 & _). split; [lia|].
    rewrite left_eq, Z.sub_0_r. cbn [map concat]. cbn [map concat] in EQ. rewrite <- EQ. f_equal.
    + unfold slice. rewrite firstn_firstn. f_equal. lia.
    + f_equal. rewrite skipn_firstn_comm, <- skipn_more. f_equal; [lia|]. f_equal. lia.
Qed.

Section Files.
Variable content : str -> option str -> option (list Z).

Definition limited (q : req) : Prop :=
  0 <= qLim q /\ qOff q + qLim q < B64 - 1 /\ chain (qRanges q) /\
  match qRanges q with [] => True | a :: _ => rOff a = qOff q /\ rOff (last (qRanges q) (mkRng 0 0)) + rLim (last (qRanges q) (mkRng 0 0)) = qOff q + qLim q end.
Definition shape (q : req) : Prop := 0 <= qOff q < B64 /\ qRead q = 0 /\ (qLim q = NO_LIMIT /\ qRanges q = [] \/ limited q).
Definition slices (q : req) : list rng := match qRanges q with [] => [mkRng (qOff q) (qLim q)] | l => l end.
Definition gives (q : req) : list Z := leftP (q, data content q).
Lemma gives_slices q : shape q -> limited q -> gives q = match content (qFile q) (qVer q) with None => [] | Some c => concat (map (slice c) (slices q)) end.
Proof.
  intros (O & R & _) (L1 & L2 & C & E). unfold gives, leftP, data, slices. cbn [fst snd]. rewrite R. destruct (content _ _) as [c|]; [|apply left_nil].
  unfold cut. replace (qLim q =? NO_LIMIT) with false by (rewrite no_limit; lia). destruct (qRanges q) as [|a rs] eqn:RS.
  - cbn [left map concat]. now rewrite app_nil_r.
  - destruct E as (E1 & E2). destruct (left_slices c rs a _ C E2) as (_ & EQ). rewrite <- EQ. do 2 f_equal; [lia|]. f_equal. lia.
Qed.
Lemma shape_ok q : shape q -> okReq q.
Proof.
  intros (O & R & [(L & S)|(L1 & L2 & C & _)]); unfold okReq; rewrite R; [rewrite S; repeat split; lia|]. split; [assumption|]. split; [lia|]. destruct (qRanges q) as [|a [|b t]]; auto. cbn in C. lia.
Qed.
Lemma chain_last l r : chain (l ++ [r]) <-> chain l /\ chain [r] /\ match l with [] => True | _ => rOff (last l (mkRng 0 0)) + rLim (last l (mkRng 0 0)) <= rOff r end.
Proof.
  induction l as [|a l IH]; [cbn; tauto|]. destruct l as [|b l].
  - cbn. tauto.
  - change ((a :: b :: l) ++ [r]) with (a :: (b :: l) ++ [r]). change (last (a :: b :: l) (mkRng 0 0)) with (last (b :: l) (mkRng 0 0)).
    remember ((b :: l) ++ [r]) as x eqn:X. destruct x as [|b2 x]; [discriminate|]. assert (b2 = b) by (cbn in X; congruence). subst b2.
    change (chain (a :: b :: x)) with (0 <= rOff a /\ 0 <= rLim a /\ rOff a + rLim a < B64 - 1 /\ rOff a + rLim a <= rOff b /\ chain (b :: x)).
    change (chain (a :: b :: l)) with (0 <= rOff a /\ 0 <= rLim a /\ rOff a + rLim a < B64 - 1 /\ rOff a + rLim a <= rOff b /\ chain (b :: l)). tauto.
Qed.

(** A range added to a request *)
Lemma extend_spec p off lim : shape p -> limited p -> 0 <= lim -> off + lim < B64 - 1 -> qOff p + qLim p <= off ->
  shape (extend p off lim) /\ limited (extend p off lim) /\ qFile (extend p off lim) = qFile p /\ qVer (extend p off lim) = qVer p /\
  qOff (extend p off lim) + qLim (extend p off lim) = off + lim /\
  gives (extend p off lim) = gives p ++ match content (qFile p) (qVer p) with None => [] | Some c => slice c (mkRng off lim) end.
Proof.
  intros S LP L0 L1 GE. assert (LP' := LP). destruct LP' as (P1 & P2 & C & E). assert (S' := S). destruct S' as (O & R & _).
  assert (LE : limited (extend p off lim) /\ match content (qFile p) (qVer p) with None => True | Some c => concat (map (slice c) (slices (extend p off lim))) = concat (map (slice c) (slices p)) ++ slice c (mkRng off lim) end).
  { unfold limited, slices, extend. cbn [qOff qLim qRanges]. rewrite (wrap_id (qOff p + qLim p)) by lia. rewrite (wrap_id (off - qOff p + lim)) by lia.
    destruct (off =? qOff p + qLim p) eqn:X; cbn [negb].
    - destruct (qRanges p) as [|a rs] eqn:RS.
      + split; [repeat split; lia|]. destruct (content _ _) as [c|]; [|trivial]. cbn [map concat]. rewrite !app_nil_r. unfold slice. cbn [rOff rLim].
        replace (Z.to_nat (off - qOff p + lim)) with (Z.to_nat (qLim p) + Z.to_nat lim)%nat by lia. rewrite firstn_more, <- skipn_more. do 3 f_equal. lia.
      + destruct E as (E1 & E2). destruct (exists_last (l := a :: rs)) as (l & r & EQ); [discriminate|]. rewrite EQ in *. rewrite last_last, removelast_last in *. apply chain_last in C as (C1 & C2 & C3). cbn [chain] in C2.
        rewrite (wrap_id (off - rOff r + lim)) by lia. split.
        * split; [lia|]. split; [lia|]. split; [|].
          { apply chain_last. split; [assumption|]. split; [cbn [chain rOff rLim]; lia|]. cbn [rOff]. assumption. }
          destruct l as [|b l]; cbn [app] in *; [injection EQ as <- ->; cbn [last rOff rLim]; lia|]. injection EQ as <- ->. split; [assumption|].
          change (a :: l ++ [mkRng (rOff r) (off - rOff r + lim)]) with ((a :: l) ++ [mkRng (rOff r) (off - rOff r + lim)]). rewrite last_last. cbn [rOff rLim]. lia.
        * destruct (content _ _) as [c|]; [|trivial]. destruct (l ++ [r]) as [|x xs] eqn:Y; [destruct l; discriminate|]. rewrite <- Y. destruct (l ++ [mkRng (rOff r) (off - rOff r + lim)]) as [|z zs] eqn:W; [destruct l; discriminate|]. rewrite <- W.
          rewrite !map_app, !concat_app. cbn [map concat]. rewrite !app_nil_r, <- app_assoc. f_equal. unfold slice. cbn [rOff rLim].
          replace (Z.to_nat (off - rOff r + lim)) with (Z.to_nat (rLim r) + Z.to_nat lim)%nat by lia. rewrite firstn_more, <- skipn_more. do 3 f_equal. lia.
    - set (l := match qRanges p with [] => [mkRng (qOff p) (qLim p)] | x => x end).
      assert (CL : chain l /\ l <> [] /\ rOff (last l (mkRng 0 0)) + rLim (last l (mkRng 0 0)) = qOff p + qLim p /\ match l with [] => True | a :: _ => rOff a = qOff p end).
      { subst l. destruct (qRanges p) as [|a rs] eqn:RS; [cbn [last rOff rLim chain]; split; [repeat split; lia|]; split; [discriminate|]; split; reflexivity|]. split; [assumption|]. split; [discriminate|]. split; apply E. }
      destruct CL as (C1 & C2 & C3 & C4). assert (SL : match l ++ [mkRng off lim] with [] => [mkRng (qOff p) (off - qOff p + lim)] | x => x end = l ++ [mkRng off lim]) by (destruct l; reflexivity).
      split.
      + split; [lia|]. split; [lia|]. split; [apply chain_last; split; [assumption|]; split; [cbn [chain rOff rLim]; lia|]; destruct l; [trivial|rewrite C3; cbn [rOff]; lia]|].
        destruct l as [|a l2]; [congruence|]. change ((a :: l2) ++ [mkRng off lim]) with (a :: l2 ++ [mkRng off lim]). split; [assumption|]. change (a :: l2 ++ [mkRng off lim]) with ((a :: l2) ++ [mkRng off lim]). rewrite last_last. cbn [rOff rLim]. lia.
      + destruct (content _ _) as [c|]; [|trivial]. rewrite SL, map_app, concat_app. cbn [map concat]. now rewrite app_nil_r. }
  destruct LE as (LE & EQ). assert (SE : shape (extend p off lim)) by (unfold shape; split; [exact O|]; split; [exact R|]; now right).
  split; [assumption|]. split; [assumption|]. split; [reflexivity|]. split; [reflexivity|]. split.
  - unfold extend. cbn [qOff qLim]. rewrite (wrap_id (off - qOff p + lim)) by lia. lia.
  - rewrite (gives_slices _ SE LE), (gives_slices _ S LP). change (qFile (extend p off lim)) with (qFile p). change (qVer (extend p off lim)) with (qVer p). destruct (content _ _); [exact EQ|reflexivity].
Qed.

(** After the ranges [done] have been added *)
Definition added (done : list add) (m : multi) : Prop :=
  live m /\ Forall okReq (mReqs m) /\ mEof m = false /\ rem content m = concat (map (meant content) done) /\
  (Forall (fun a => content (aFile a) (aVer a) <> None) done -> Forall (present content) (mReqs m)) /\
  match rev done with
  | [] => mReqs m = [] /\ mQueue m = []
  | a :: _ => exists before p, mReqs m = before ++ [p] /\ (length (mQueue m) <= length before)%nat /\ shape p /\ qFile p = aFile a /\ qVer p = aVer a /\
      match aLim a with None => qLim p = NO_LIMIT | Some l => limited p /\ qOff p + qLim p = aOff a + l end
  end.
Definition joins (prior a : add) : Prop := aFile prior = aFile a -> exists x y, aLim prior = Some x /\ aLim a = Some y /\ aOff prior + x <= aOff a.
Definition same (prior a : add) : Prop := aFile prior = aFile a -> aVer prior = aVer a.

Lemma addNew_spec qm done m a : added done m -> fits a ->
  addNew content qm m a <> UB /\ (forall e, addNew content qm m a = Err e -> e = EFileMissing) /\
  (Forall (fun a => content (aFile a) (aVer a) <> None) (done ++ [a]) -> exists m2, addNew content qm m a = Ok m2) /\
  forall m2, addNew content qm m a = Ok m2 -> added (done ++ [a]) m2.
Proof.
  intros (LV & OK & EF & RM & PR & LA) (F1 & F2). unfold addNew. set (q := mkReq _ _ _ _ _ _). set (m1 := mkMulti _ _ _). destruct (fill_err content qm true m1) as (U & ER). split; [exact U|]. split; [exact ER|].
  assert (LV1 : live m1) by (destruct LV as (A & B); split; [exact A|]; subst m1; cbn [mQueue mReqs]; rewrite app_length; lia).
  assert (SH : shape q /\ match aLim a with None => qLim q = NO_LIMIT | Some l => limited q /\ qOff q + qLim q = aOff a + l end).
  { subst q. unfold shape, limited. cbn [qOff qLim qRanges qRead]. change (2 ^ 64) with B64 in *. destruct (aLim a) as [l|]; cbn [chain]; [split; [split; [lia|]; split; [reflexivity|]; right; repeat split; lia|repeat split; lia]|split; [split; [lia|]; split; [reflexivity|]; left; split; reflexivity|reflexivity]]. }
  destruct SH as (SH & SL).
  assert (PQ : Forall (fun a => content (aFile a) (aVer a) <> None) (done ++ [a]) -> Forall (present content) (mReqs m1)).
  { intros F. apply Forall_app in F as (FA & FB). inversion FB; subst. subst m1. cbn [mReqs]. apply Forall_app. split; [now apply PR|]. constructor; [assumption|constructor]. }
  split; [intros F; apply fill_ok; now apply PQ|]. intros m2 H. destruct (fill_spec _ _ _ _ _ LV1 H) as (LV2 & RR & PP & _ & PT). destruct (PT eq_refl) as (E2 & LT).
  split; [exact LV2|]. split; [rewrite RR; subst m1; cbn [mReqs]; apply Forall_app; split; [assumption|]; constructor; [now apply shape_ok|constructor]|]. split; [now rewrite E2|]. split; [|split].
  - unfold rem. rewrite PP. subst m1. cbn [mReqs mQueue]. rewrite pairs_app by apply LV. rewrite !map_app, !concat_app. unfold rem in RM. rewrite RM. f_equal. cbn [map concat]. f_equal. unfold leftP, data, meant. subst q. cbn [fst snd qRanges left qFile qVer qOff qLim].
    destruct (content _ _) as [c|]; [|reflexivity]. unfold cut. change (2 ^ 64) with B64 in *. destruct (aLim a) as [l|].
    + replace (l =? NO_LIMIT) with false by (rewrite no_limit; lia). rewrite bytes_slice by lia. do 2 f_equal; [lia|]. f_equal. lia.
    + rewrite Z.eqb_refl, bytes_from by lia. f_equal. lia.
  - intros F. rewrite RR. now apply PQ.
  - rewrite rev_unit. exists (mReqs m), q. split; [exact RR|]. split; [|repeat split; try apply SH; assumption].
    assert (L : (length (mQueue m1) < length (mReqs m1))%nat) by (subst m1; cbn [mQueue mReqs]; rewrite app_length; cbn [length]; destruct LV; lia). specialize (LT L). rewrite RR in LT. subst m1. cbn [mReqs] in LT. rewrite app_length in LT. cbn [length] in LT. lia.
Qed.

Lemma addReq_spec ro qm done m a : added done m -> fits a ->
  addReq content ro qm m a <> UB /\
  (forall prior before, done = before ++ [prior] -> ~ joins prior a -> addReq content ro qm m a = Err EAssert) /\
  ((forall prior before, done = before ++ [prior] -> joins prior a) ->
   (forall e, addReq content ro qm m a = Err e -> e = EFileMissing) /\
   (Forall (fun a => content (aFile a) (aVer a) <> None) (done ++ [a]) -> exists m2, addReq content ro qm m a = Ok m2)) /\
  ((forall prior before, done = before ++ [prior] -> same prior a) -> forall m2, addReq content ro qm m a = Ok m2 -> added (done ++ [a]) m2).
Proof.
  intros AD F. destruct (addNew_spec qm done m a AD F) as (NU & NE & NO & NA). assert (AD' := AD). destruct AD' as (LV & OK & EF & RM & PR & LA). unfold addReq.
  destruct (rev done) as [|prior pre] eqn:RD.
  { destruct LA as (-> & _). cbn [rev]. split; [exact NU|]. split; [intros pr be ->; rewrite rev_unit in RD; discriminate|]. split; [intros _; split; assumption|intros _; exact NA]. }
  destruct LA as (before & p & R & LQ & SH & QF & QV & QL). rewrite R, rev_unit. cbv iota beta.
  assert (DN : done = rev pre ++ [prior]) by (rewrite <- (rev_involutive done), RD; reflexivity).
  assert (UN : forall pr be, done = be ++ [pr] -> pr = prior) by (intros pr be E; rewrite DN in E; apply app_inj_tail in E as (_ & <-); reflexivity).
  assert (F' := F). destruct F' as (F1 & F2). change (2 ^ 64) with B64 in *.
  destruct (strEqb (qFile p) (aFile a)) eqn:SE.
  - apply strEqb_eq in SE. assert (FE : aFile prior = aFile a) by congruence. destruct (aLim prior) as [x|] eqn:LX.
    + destruct QL as (LP & QE). assert (LP' := LP). destruct LP' as (P1 & P2 & _). destruct SH as (SO & SR & SB). assert (SH : shape p) by (split; [|split]; assumption).
      replace (qLim p =? NO_LIMIT) with false by (rewrite no_limit; lia). destruct (aLim a) as [l|] eqn:LA.
      * rewrite (wrap_id (qOff p + qLim p)) by lia. destruct (aOff a <? qOff p + qLim p) eqn:LT.
        { split; [discriminate|]. split; [reflexivity|]. split; [|discriminate]. intros J. destruct (J _ _ DN FE) as (x2 & y & EX & EY & LL). assert (x2 = x) by congruence. lia. }
        assert (JN : joins prior a) by (intros _; exists x, l; repeat split; try assumption; lia).
        destruct (aOff a - (qOff p + qLim p) <=? ro).
        { split; [discriminate|]. split; [intros pr be E NJ; apply UN in E as ->; destruct (NJ JN)|]. split; [intros _; split; [discriminate|eauto]|].
          intros SM m2 [= <-]. specialize (SM _ _ DN FE). destruct (extend_spec p (aOff a) l SH LP) as (S2 & L2 & F2' & V2 & E2 & G2); try lia.
          rewrite rev_involutive. split; [destruct LV as (A & B); split; [exact A|]; cbn [mQueue mReqs]; rewrite app_length; lia|]. cbn [mReqs mQueue mEof].
          rewrite R in OK. apply Forall_app in OK as (OK1 & _). split; [apply Forall_app; split; [assumption|]; constructor; [now apply shape_ok|constructor]|]. split; [assumption|]. split; [|split].
          - unfold rem in *. cbn [mReqs mQueue]. rewrite R in RM. rewrite pairs_app in * by assumption. rewrite !map_app, !concat_app in *. cbn [map concat] in *. rewrite !app_nil_r in *. fold (gives (extend p (aOff a) l)). fold (gives p) in RM. rewrite G2, app_assoc, RM. f_equal. clear G2.
            unfold meant. rewrite LA, SE, QV, SM. destruct (content (aFile a) (aVer a)) as [c|]; [|reflexivity]. unfold slice. cbn [rOff rLim]. rewrite bytes_slice by lia. do 2 f_equal; [lia|]. f_equal. lia.
          - intros FP. apply Forall_app in FP as (FA & FB). specialize (PR FA). rewrite R in PR. apply Forall_app in PR as (PR1 & PR2). apply Forall_app. split; [assumption|]. constructor; [|constructor]. inversion PR2; subst. unfold present in *. now rewrite F2', V2.
          - rewrite rev_unit. exists before, (extend p (aOff a) l). rewrite LA. repeat split; try assumption; try apply S2; try apply L2; congruence. }
        split; [exact NU|]. split; [intros pr be E NJ; apply UN in E as ->; destruct (NJ JN)|]. split; [intros _; split; assumption|intros _; exact NA].
      * split; [discriminate|]. split; [reflexivity|]. split; [|discriminate]. intros J. destruct (J _ _ DN FE) as (x2 & y & EX & EY & LL). congruence.
    + rewrite QL, Z.eqb_refl. split; [discriminate|]. split; [reflexivity|]. split; [|discriminate]. intros J. destruct (J _ _ DN FE) as (x2 & y & EX & EY & LL). congruence.
  - assert (FN : aFile prior <> aFile a) by (intros E; rewrite QF, E, strEqb_refl in SE; discriminate). split; [exact NU|]. split; [|split; [intros _; split; assumption|intros _; exact NA]].
    intros pr be E NJ. apply UN in E as ->. destruct NJ. intros E2. destruct (FN E2).
Qed.
End Files.
