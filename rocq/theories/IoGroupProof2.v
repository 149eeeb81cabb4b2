From Verif Require Import Base IoGroupModel IoGroupSpec IoGroupProof.
Open Scope Z_scope.

Section Read.
Variables (D : Type) (isOut : D -> bool) (inOut : D -> option (list Z) -> nat -> D * list Z) (procIn : D -> list Z -> D) (same : D -> bool)
  (done : D -> option bool) (bufferNew : D).
Hypothesis Hok : filterOk D isOut inOut procIn same done.
Variables (V : Type) (drvRead : V -> nat -> bool -> V * list Z) (drvEof : V -> bool) (blk : bool) (size : nat).
Local Notation delivered := (delivered V drvRead drvEof).
Local Notation ginv := (ginv D isOut inOut procIn same done).
Local Notation process := (ioFilterGroupProcess D isOut inOut procIn same done).
Local Notation ioReadLoop := (ioReadLoop D isOut inOut procIn same done V drvRead drvEof blk size).
Local Notation ioRead := (ioRead D isOut inOut procIn same done V drvRead drvEof blk size).
Local Notation ioReadSmall := (ioReadSmallLoop D isOut inOut procIn same done V drvRead drvEof blk size).
Local Notation ioReadLine := (ioReadLine D isOut inOut procIn same done V drvRead drvEof blk size).
Local Notation ioGroup := (ioGroup D V).
Local Notation ioDrv := (ioDrv D V).
Local Notation ioInput := (ioInput D V).
Local Notation ioEofAll := (ioEofAll D V).
Local Notation ioOutput := (ioOutput D V).
Local Notation ioUsed := (ioUsed D V).
Local Notation mkIoread := (mkIoread D V).
Local Notation gSame := (gSame D).
Local Notation gDone := (gDone D).

Section R.
Variables (v0 : V) (l : list D).
Hypothesis Hfr : Forall (fresh D same) l.

Definition atInput (v : V) (g : group D) (inp : option (list Z)) (ph : phase) (s : list Z) : Prop :=
  match inp with
  | None => ph = End s /\ drvEof v = true
  | Some c => if gSame g then c <> [] /\ exists s', s = s' ++ c /\ (ph = Pend s' c \/ ph = Idle s) else ph = Idle s
  end.
Definition rinv (st : ioread D V) (t : list Z) : Prop :=
  (exists s ph, ginv ph l (ioGroup st) t /\ delivered v0 (ioDrv st) s /\ atInput (ioDrv st) (ioGroup st) (ioInput st) ph s) /\
  (ioEofAll st = true -> drvEof (ioDrv st) = true /\ gDone (ioGroup st) = true).

Lemma busy_at v g' inp ph' s0 t : ginv ph' l g' t -> busy ph' inp s0 -> (inp = None -> drvEof v = true) -> atInput v g' inp ph' (match inp with Some c => s0 ++ c | None => s0 end).
Proof.
  intros Hg Hb He. unfold busy, atInput in *. destruct inp as [c|]; [|auto]. destruct Hb as [Hc Hb]. destruct (gSame g') eqn:Es.
  - split; [exact Hc|]. exists s0. auto.
  - destruct Hb as [->|Hb]; [|exact Hb]. apply ginv_pend in Hg. congruence.
Qed.
Lemma loop_read : forall fuel st cap buf used block st' buf' t, rinv st t -> ioReadLoop fuel st cap buf used block = Ok (st', buf') ->
  exists a, buf' = buf ++ a /\ rinv st' (t ++ a) /\ ioOutput st' = ioOutput st /\ ioUsed st' = ioUsed st /\
    (ioEofAll st' = true \/ (cap <= length buf')%nat \/ block = false /\ (used < length buf')%nat).
Proof.
  induction fuel as [|fuel IH]; intros st cap buf used block st' buf' t H E; cbn [IoGroupModel.ioReadLoop] in E; [discriminate|].
  destruct (ioEofAll st) eqn:Ee; cbn [orb] in E.
  { injection E as <- <-. exists []. rewrite !app_nil_r. auto 10. }
  destruct (cap <=? length buf)%nat eqn:Ec.
  { apply Nat.leb_le in Ec. injection E as <- <-. exists []. rewrite !app_nil_r. auto 10. }
  apply Nat.leb_gt in Ec. destruct H as [(s & ph & Hg & Hdel & Hat) _].
  destruct (gSame (ioGroup st)) eqn:Es.
  - destruct (process fuel (ioGroup st) (ioInput st) cap buf) as [[g1 buf1]| |] eqn:Ep; cbn [bind] in E; try discriminate.
    assert (Hb : exists s0, busy ph (ioInput st) s0 /\ s = match ioInput st with Some c => s0 ++ c | None => s0 end).
    { unfold atInput in Hat. rewrite Es in Hat. destruct (ioInput st) as [c|]; [|exists s; split; [apply Hat|reflexivity]]. destruct Hat as (Hc & s' & -> & Hp). exists s'. split; [split; assumption|reflexivity]. }
    destruct Hb as (s0 & Hb & ->).
    destruct (process_ok D isOut inOut procIn same done Hok fuel l (ioGroup st) (ioInput st) cap buf ph s0 t g1 buf1 Hfr Hg Ec) as (ph' & a & Hg' & -> & Hb'); [rewrite Es; exact Hb|exact Ep|].
    eapply (IH _ _ _ _ _ _ _ (t ++ a)) in E as (a2 & -> & Hr & Ho & Hu & Hend).
    + exists (a ++ a2). rewrite !app_assoc. cbn [IoGroupModel.ioOutput IoGroupModel.ioUsed] in *. auto 10.
    + split; cbn [IoGroupModel.ioDrv IoGroupModel.ioGroup IoGroupModel.ioInput IoGroupModel.ioEofAll].
      * eexists _, ph'. split; [exact Hg'|]. split; [exact Hdel|]. eapply busy_at; [exact Hg'|exact Hb'|]. intros K. rewrite K in Hat. apply Hat.
      * intros K. apply andb_prop in K. exact K.
  - match type of E with (let (v, input) := ?x in _) = _ => destruct x as [v1 inp1] eqn:Er end.
    match type of E with bind ?x _ = _ => destruct x as [[g1 buf1]| |] eqn:Ep; cbn [bind] in E; try discriminate end.
    assert (K : exists a s1 ph1, buf1 = buf ++ a /\ ginv ph1 l g1 (t ++ a) /\ delivered v0 v1 s1 /\ atInput v1 g1 inp1 ph1 s1).
    { assert (P : forall s0, inp1 <> Some [] -> offered ph inp1 s0 -> (inp1 = None -> drvEof v1 = true) -> delivered v0 v1 (match inp1 with Some c => s0 ++ c | None => s0 end) ->
        exists a s1 ph1, buf1 = buf ++ a /\ ginv ph1 l g1 (t ++ a) /\ delivered v0 v1 s1 /\ atInput v1 g1 inp1 ph1 s1).
      { intros s0 Hn Hoff He Hd. assert (Ep' : process fuel (ioGroup st) inp1 cap buf = Ok (g1, buf1)) by (destruct inp1 as [[|]|]; [congruence|exact Ep..]).
        destruct (process_ok D isOut inOut procIn same done Hok fuel l (ioGroup st) inp1 cap buf ph s0 t g1 buf1 Hfr Hg Ec) as (ph' & a & Hg' & -> & Hb'); [rewrite Es; exact Hoff|exact Ep'|].
        eexists a, _, ph'. split; [reflexivity|]. split; [exact Hg'|]. split; [exact Hd|]. eapply busy_at; eassumption. }
      unfold atInput in Hat. rewrite Es in Hat. destruct (ioInput st) as [c|] eqn:Ei; cbn [isSomeB] in Er.
      - subst ph. destruct (drvEof (ioDrv st)) eqn:Ede; cbn [negb] in Er.
        + injection Er as <- <-. apply (P s); [discriminate|now left|auto|exact Hdel].
        + destruct (drvRead (ioDrv st) _ block) as [v2 c2] eqn:Ed. injection Er as <- <-. assert (Hd2 : delivered v0 v2 (s ++ c2)) by (eapply del_read; eassumption).
          destruct c2 as [|x c2].
          * injection Ep as <- <-. exists [], (s ++ []), (Idle s). rewrite !app_nil_r in *. split; [reflexivity|]. split; [exact Hg|]. split; [exact Hd2|]. cbn. rewrite Es. reflexivity.
          * apply (P s); [discriminate|split; [discriminate|now left]|discriminate|exact Hd2].
      - injection Er as <- <-. destruct Hat as [-> He]. apply (P s); [discriminate|now right|auto|exact Hdel]. }
    destruct K as (a & s1 & ph1 & -> & Hg1 & Hd1 & Ha1).
    destruct (negb block && (used <? length (buf ++ a))%nat) eqn:Ebl.
    + injection E as <- <-. apply andb_prop in Ebl as [Eb Eu]. apply negb_true_iff in Eb. apply Nat.ltb_lt in Eu. exists a. split; [reflexivity|]. cbn [IoGroupModel.ioOutput IoGroupModel.ioUsed IoGroupModel.ioEofAll].
      split; [|auto 10]. split; [cbn; exists s1, ph1; auto|]. cbn. congruence.
    + eapply (IH _ _ _ _ _ _ _ (t ++ a)) in E as (a2 & -> & Hr & Ho & Hu & Hend).
      * exists (a ++ a2). rewrite !app_assoc. cbn [IoGroupModel.ioOutput IoGroupModel.ioUsed] in *. auto 10.
      * split; cbn [IoGroupModel.ioDrv IoGroupModel.ioGroup IoGroupModel.ioInput IoGroupModel.ioEofAll]; [exists s1, ph1; auto|]. intros K. apply andb_prop in K. exact K.
Qed.
Lemma loop_read_total : progress D inOut same -> forall fuel st cap buf used block t, rinv st t ->
  (exists r, ioReadLoop fuel st cap buf used block = Ok r) \/ ioReadLoop fuel st cap buf used block = Err EOther.
Proof.
  intros Hpr. induction fuel as [|fuel IH]; intros st cap buf used block t H; cbn [IoGroupModel.ioReadLoop]; [auto|].
  destruct (ioEofAll st) eqn:Ee; cbn [orb]; [eauto|]. destruct (cap <=? length buf)%nat eqn:Ec; [eauto|].
  apply Nat.leb_gt in Ec. destruct H as [(s & ph & Hg & Hdel & Hat) _].
  destruct (gSame (ioGroup st)) eqn:Es.
  - assert (Hb : exists s0, busy ph (ioInput st) s0 /\ s = match ioInput st with Some c => s0 ++ c | None => s0 end).
    { unfold atInput in Hat. rewrite Es in Hat. destruct (ioInput st) as [c|]; [|exists s; split; [apply Hat|reflexivity]]. destruct Hat as (Hc & s' & -> & Hp). exists s'. split; [split; assumption|reflexivity]. }
    destruct Hb as (s0 & Hb & ->).
    destruct (process_total D isOut inOut procIn same done Hok fuel l (ioGroup st) (ioInput st) cap buf ph s0 t Hpr Hfr Hg Ec) as [([g1 buf1] & Ep)|Ep]; [rewrite Es; exact Hb| |rewrite Ep; auto].
    rewrite Ep. cbn [bind].
    destruct (process_ok D isOut inOut procIn same done Hok fuel l (ioGroup st) (ioInput st) cap buf ph s0 t g1 buf1 Hfr Hg Ec) as (ph' & a & Hg' & -> & Hb'); [rewrite Es; exact Hb|exact Ep|].
    eapply (IH _ _ _ _ _ (t ++ a)). split; cbn [IoGroupModel.ioDrv IoGroupModel.ioGroup IoGroupModel.ioInput IoGroupModel.ioEofAll].
    + eexists _, ph'. split; [exact Hg'|]. split; [exact Hdel|]. eapply busy_at; [exact Hg'|exact Hb'|]. intros K. rewrite K in Hat. apply Hat.
    + intros K. apply andb_prop in K. exact K.
  - match goal with |- context [let (v, input) := ?x in _] => destruct x as [v1 inp1] eqn:Er end.
    assert (K : match inp1 with Some [] => delivered v0 v1 s /\ ph = Idle s | _ => exists s0, offered ph inp1 s0 /\ (inp1 = None -> drvEof v1 = true) /\ delivered v0 v1 (match inp1 with Some c => s0 ++ c | None => s0 end) end).
    { unfold atInput in Hat. rewrite Es in Hat. destruct (ioInput st) as [c|] eqn:Ei; cbn [isSomeB] in Er.
      - subst ph. destruct (drvEof (ioDrv st)) eqn:Ede; cbn [negb] in Er.
        + injection Er as <- <-. exists s. split; [now left|]. auto.
        + destruct (drvRead (ioDrv st) _ block) as [v2 c2] eqn:Ed. injection Er as <- <-. assert (Hd2 : delivered v0 v2 (s ++ c2)) by (eapply del_read; eassumption).
          destruct c2 as [|x c2]; [rewrite app_nil_r in Hd2; auto|]. exists s. split; [split; [discriminate|now left]|]. split; [discriminate|exact Hd2].
      - injection Er as <- <-. destruct Hat as [-> He]. exists s. split; [now right|]. auto. }
    assert (K2 : (exists g1 a s1 ph1, match inp1 with Some [] => Ok (ioGroup st, buf) | _ => process fuel (ioGroup st) inp1 cap buf end = Ok (g1, buf ++ a) /\ ginv ph1 l g1 (t ++ a) /\ delivered v0 v1 s1 /\ atInput v1 g1 inp1 ph1 s1)
      \/ match inp1 with Some [] => Ok (ioGroup st, buf) | _ => process fuel (ioGroup st) inp1 cap buf end = Err EOther).
    { assert (P : inp1 <> Some [] -> (exists g1 a s1 ph1, process fuel (ioGroup st) inp1 cap buf = Ok (g1, buf ++ a) /\ ginv ph1 l g1 (t ++ a) /\ delivered v0 v1 s1 /\ atInput v1 g1 inp1 ph1 s1)
        \/ process fuel (ioGroup st) inp1 cap buf = Err EOther).
      { intros Hn. assert (K' : exists s0, offered ph inp1 s0 /\ (inp1 = None -> drvEof v1 = true) /\ delivered v0 v1 (match inp1 with Some c => s0 ++ c | None => s0 end)) by (destruct inp1 as [[|]|]; [congruence|exact K..]).
        destruct K' as (s0 & Hoff & He & Hd).
        destruct (process_total D isOut inOut procIn same done Hok fuel l (ioGroup st) inp1 cap buf ph s0 t Hpr Hfr Hg Ec) as [([g1 buf1] & Ep)|Ep]; [rewrite Es; exact Hoff| |auto].
        destruct (process_ok D isOut inOut procIn same done Hok fuel l (ioGroup st) inp1 cap buf ph s0 t g1 buf1 Hfr Hg Ec) as (ph' & a & Hg' & -> & Hb'); [rewrite Es; exact Hoff|exact Ep|].
        left. eexists g1, a, _, ph'. split; [exact Ep|]. split; [exact Hg'|]. split; [exact Hd|]. eapply busy_at; eassumption. }
      destruct inp1 as [[|]|]; [|apply P; discriminate..]. destruct K as [Kd ->]. left. exists (ioGroup st), [], s, (Idle s). rewrite !app_nil_r. cbn. rewrite Es. auto. }
    destruct K2 as [(g1 & a & s1 & ph1 & -> & Hg1 & Hd1 & Ha1)| ->]; cbn [bind]; [|auto].
    destruct (negb block && _); [eauto|]. eapply (IH _ _ _ _ _ (t ++ a)). split; cbn [IoGroupModel.ioDrv IoGroupModel.ioGroup IoGroupModel.ioInput IoGroupModel.ioEofAll]; [exists s1, ph1; auto|].
    intros K3. apply andb_prop in K3. exact K3.
Qed.

Definition rI (st : ioread D V) (r : list Z) : Prop := rinv st (r ++ ioOutput st).
Lemma rinv_out v g i e o u o' u' t : rinv (mkIoread v g i e o u) t -> rinv (mkIoread v g i e o' u') t. Proof. exact (fun H => H). Qed.
Lemma loop_full fuel st cap buf used block st' buf' : (cap <= length buf)%nat -> ioReadLoop fuel st cap buf used block = Ok (st', buf') -> st' = st /\ buf' = buf.
Proof.
  intros H E. destruct fuel; [discriminate|]. cbn [IoGroupModel.ioReadLoop] in E. apply Nat.leb_le in H. rewrite H, orb_true_r in E. injection E as <- <-. auto.
Qed.
Lemma take_ok st cap buf st1 buf1 r : rI st r -> takeOutput D V st cap buf = (st1, buf1) ->
  exists x, buf1 = buf ++ x /\ rI st1 (r ++ x) /\ (ioOutput st1 = [] \/ (cap <= length buf1)%nat) /\ (ioOutput st = [] -> ioOutput st1 = []) /\ ioEofAll st1 = ioEofAll st.
Proof.
  unfold takeOutput. intros H E. injection E as <- <-. set (n := Nat.min _ _). exists (firstn n (ioOutput st)). split; [reflexivity|]. split.
  - unfold rI. cbn [IoGroupModel.ioOutput]. rewrite <- app_assoc, firstn_skipn. destruct st. exact H.
  - cbn [IoGroupModel.ioOutput IoGroupModel.ioEofAll]. split; [|split; [intros ->; apply skipn_nil|reflexivity]].
    destruct (Nat.le_gt_cases (length (ioOutput st)) (cap - length buf)) as [K|K].
    + left. apply skipn_all2. unfold n. lia.
    + right. rewrite app_length, firstn_length. unfold n. lia.
Qed.
Lemma internal_ok fuel st cap buf used block st' buf' r : rI st r -> (ioOutput st = [] \/ (cap <= length buf)%nat) -> ioReadLoop fuel st cap buf used block = Ok (st', buf') ->
  exists a, buf' = buf ++ a /\ rI st' (r ++ a) /\ (ioOutput st = [] -> ioOutput st' = []) /\ (ioEofAll st' = true \/ (cap <= length buf')%nat \/ block = false /\ (used < length buf')%nat).
Proof.
  intros H Ho E. destruct (Nat.le_gt_cases cap (length buf)) as [K|K].
  - apply loop_full in E as [-> ->]; [|exact K]. exists []. rewrite !app_nil_r. auto 10.
  - destruct Ho as [Ho|Ho]; [|lia]. unfold rI in H. rewrite Ho, app_nil_r in H. destruct (loop_read _ _ _ _ _ _ _ _ _ H E) as (a & -> & Hr & Ho' & _ & He).
    exists a. split; [reflexivity|]. split; [unfold rI; rewrite Ho', Ho, app_nil_r; exact Hr|]. split; [congruence|exact He].
Qed.
Lemma read_ok fuel st cap buf st' buf' r : rI st r -> ioRead fuel st cap buf = Ok (st', buf') ->
  exists a, buf' = buf ++ a /\ rI st' (r ++ a) /\ (ioOutput st = [] -> ioOutput st' = []) /\ (ioEofAll st' = true \/ (cap <= length buf')%nat).
Proof.
  unfold IoGroupModel.ioRead, ioReadInternal. intros H E. destruct (takeOutput D V st cap buf) as [st1 buf1] eqn:Et. destruct (take_ok _ _ _ _ _ _ H Et) as (x & -> & H1 & Ho & Hn & _).
  destruct (internal_ok _ _ _ _ _ _ _ _ _ H1 Ho E) as (a & -> & H2 & Hn2 & He). exists (x ++ a). rewrite !app_assoc. split; [reflexivity|]. split; [exact H2|]. split; [auto|].
  destruct He as [He|[He|[He _]]]; [auto|auto|discriminate].
Qed.
Lemma small_ok : forall fuel st cap buf st' buf' r, rI st r -> ioReadSmall fuel st cap buf = Ok (st', buf') ->
  exists a, buf' = buf ++ a /\ rI st' (r ++ a) /\ (ioEofAll st' = true \/ (cap <= length buf')%nat).
Proof.
  induction fuel as [|fuel IH]; intros st cap buf st' buf' r H E; cbn [ioReadSmallLoop] in E; [discriminate|].
  destruct (takeOutput D V st cap buf) as [st1 buf1] eqn:Et. destruct (take_ok _ _ _ _ _ _ H Et) as (x & -> & H1 & Ho & _ & _).
  match type of E with bind ?e _ = _ => destruct e as [[st2 buf2]| |] eqn:Ei; cbn [bind] in E; try discriminate end.
  assert (K : exists a, buf2 = buf ++ a /\ rI st2 (r ++ a)).
  { destruct (length (buf ++ x) <? cap)%nat eqn:El; [|injection Ei as <- <-; eauto]. apply Nat.ltb_lt in El. destruct (size <=? cap - length (buf ++ x))%nat.
    - destruct (internal_ok _ _ _ _ _ _ _ _ _ H1 Ho Ei) as (a & -> & H2 & _). exists (x ++ a). rewrite !app_assoc. auto.
    - unfold ioReadInternal in Ei. match type of Ei with bind ?e _ = _ => destruct e as [[st3 out]| |] eqn:Ei3; cbn [bind] in Ei; try discriminate end. injection Ei as <- <-.
      destruct Ho as [Ho|Ho]; [|lia]. destruct (internal_ok _ _ _ _ _ _ _ _ _ H1 (or_introl Ho) Ei3) as (a & -> & H2 & Hn & _). exists x. split; [reflexivity|].
      specialize (Hn Ho). unfold rI in *. rewrite Hn, app_nil_r in H2. cbn [app IoGroupModel.ioOutput]. destruct st3. eapply rinv_out. exact H2. }
  destruct K as (a & -> & H2). destruct ((length (buf ++ a) <? cap)%nat && negb (ioEofAll st2)) eqn:Ec.
  - destruct (IH _ _ _ _ _ _ H2 E) as (a2 & -> & H3 & He). exists (a ++ a2). rewrite !app_assoc. auto.
  - injection E as <- <-. exists a. split; [reflexivity|]. split; [exact H2|]. apply andb_false_iff in Ec as [Ec|Ec]; [right; apply Nat.ltb_ge, Ec|left; now apply negb_false_iff].
Qed.
Lemma split_lf o a b : splitLf o = Some (a, b) -> o = a ++ 10 :: b /\ ~ In 10 a.
Proof.
  revert a. induction o as [|c o IH]; cbn; intros a E; [discriminate|]. destruct (c =? 10) eqn:Ec.
  - apply Z.eqb_eq in Ec. injection E as <- <-. subst c. auto.
  - apply Z.eqb_neq in Ec. destruct (splitLf o) as [[x y]|]; [|discriminate]. injection E as <- <-. destruct (IH x eq_refl) as [-> K]. split; [reflexivity|]. intros [K1|K1]; auto.
Qed.
Lemma split_no_lf o : splitLf o = None -> ~ In 10 o.
Proof.
  induction o as [|c o IH]; cbn; intros E; [tauto|]. destruct (c =? 10) eqn:Ec; [discriminate|]. apply Z.eqb_neq in Ec. destruct (splitLf o) as [[x y]|]; [discriminate|]. specialize (IH eq_refl). intros [K1|K1]; auto.
Qed.
Lemma line_ok : forall fuel st allowEof st' line r, rI st r -> ioReadLine fuel st allowEof = Ok (st', line) -> ~ In 10 line /\
  ((0 < ioUsed st')%nat /\ rI st' (r ++ line ++ [10]) \/ ioUsed st' = O /\ allowEof = true /\ ioEofAll st' = true /\ ioOutput st' = line /\ rI st' r).
Proof.
  induction fuel as [|fuel IH]; intros st allowEof st' line r H E; cbn [IoGroupModel.ioReadLine] in E; [discriminate|].
  destruct (splitLf (ioOutput st)) as [[a b]|] eqn:Es.
  - injection E as <- <-. apply split_lf in Es as [Es Hn]. split; [exact Hn|]. left. cbn [IoGroupModel.ioUsed]. split; [lia|]. unfold rI in *. cbn [IoGroupModel.ioOutput].
    rewrite Es in H. rewrite <- !app_assoc. destruct st. exact H.
  - destruct (size <=? length (ioOutput st))%nat eqn:El; [discriminate|]. apply Nat.leb_gt in El. destruct (ioEofAll st) eqn:Ee.
    + destruct allowEof; [|discriminate]. injection E as <- <-. split; [apply split_no_lf, Es|]. right. cbn. split; [reflexivity|]. split; [reflexivity|]. split; [reflexivity|]. split; [reflexivity|].
      destruct st; cbn in *; subst; exact H.
    + unfold ioReadInternal in E. match type of E with bind ?e _ = _ => destruct e as [[st3 out]| |] eqn:Ei3; cbn [bind] in E; try discriminate end.
      destruct (loop_read _ _ _ _ _ _ _ _ _ H Ei3) as (a & -> & H2 & _). eapply IH; [|exact E]. unfold rI. cbn [IoGroupModel.ioOutput]. rewrite app_assoc. destruct st3. exact H2.
Qed.
Lemma read_total fuel st cap buf r : progress D inOut same -> rI st r -> (exists x, ioRead fuel st cap buf = Ok x) \/ ioRead fuel st cap buf = Err EOther.
Proof.
  intros Hpr H. unfold IoGroupModel.ioRead, ioReadInternal. destruct (takeOutput D V st cap buf) as [st1 buf1] eqn:Et. destruct (take_ok _ _ _ _ _ _ H Et) as (x & -> & H1 & Ho & Hn & _).
  eapply loop_read_total; [exact Hpr|exact H1].
Qed.
Lemma small_total : progress D inOut same -> forall fuel st cap buf r, rI st r -> (exists x, ioReadSmall fuel st cap buf = Ok x) \/ ioReadSmall fuel st cap buf = Err EOther.
Proof.
  intros Hpr. induction fuel as [|fuel IH]; intros st cap buf r H; cbn [ioReadSmallLoop]; [auto|].
  destruct (takeOutput D V st cap buf) as [st1 buf1] eqn:Et. destruct (take_ok _ _ _ _ _ _ H Et) as (x & -> & H1 & Ho & _ & _). unfold ioReadInternal.
  destruct (length (buf ++ x) <? cap)%nat eqn:El; cbn [bind]; [|rewrite El; cbn [andb]; eauto]. apply Nat.ltb_lt in El. destruct Ho as [Ho|Ho]; [|lia]. destruct (size <=? cap - length (buf ++ x))%nat.
  - destruct (loop_read_total Hpr fuel st1 cap (buf ++ x) (length (buf ++ x)) true _ H1) as [([st2 b2] & E2)|E2]; rewrite E2; cbn [bind]; [|auto].
    destruct ((length b2 <? cap)%nat && negb (ioEofAll st2)); [|eauto]. destruct (internal_ok _ _ _ _ _ _ _ _ _ H1 (or_introl Ho) E2) as (a & -> & H2 & _). eapply IH; exact H2.
  - destruct (loop_read_total Hpr fuel st1 size [] (length (@nil Z)) false _ H1) as [([st2 b2] & E2)|E2]; rewrite E2; cbn [bind]; [|auto].
    destruct ((length (buf ++ x) <? cap)%nat && negb (IoGroupModel.ioEofAll D V _)); [|eauto]. destruct (internal_ok _ _ _ _ _ _ _ _ _ H1 (or_introl Ho) E2) as (a & -> & H2 & Hn & _).
    eapply (IH _ _ _ (r ++ x)). specialize (Hn Ho). unfold rI in *. rewrite Hn, app_nil_r in H2. cbn [app IoGroupModel.ioOutput]. destruct st2. eapply rinv_out. exact H2.
Qed.
(** A line may be missing; otherwise nothing fails. *)
Lemma line_total : progress D inOut same -> forall fuel st allowEof r, rI st r -> (exists x, ioReadLine fuel st allowEof = Ok x) \/ ioReadLine fuel st allowEof = Err EOther \/ ioReadLine fuel st allowEof = Err EFileRead.
Proof.
  intros Hpr. induction fuel as [|fuel IH]; intros st allowEof r H; cbn [IoGroupModel.ioReadLine]; [auto|]. destruct (splitLf (ioOutput st)) as [[a b]|]; [eauto|].
  destruct (size <=? length (ioOutput st))%nat; [auto|]. destruct (ioEofAll st); [destruct allowEof; eauto|]. unfold ioReadInternal.
  destruct (loop_read_total Hpr fuel st size (ioOutput st) (length (ioOutput st)) false _ H) as [([st2 b2] & E2)|E2]; rewrite E2; cbn [bind]; [|auto].
  destruct (loop_read _ _ _ _ _ _ _ _ _ H E2) as (a & -> & H2 & _). eapply (IH _ _ r). unfold rI. cbn [IoGroupModel.ioOutput]. rewrite app_assoc. destruct st2. exact H2.
Qed.
Lemma rI_eof st r : rI st r -> ioEofAll st = true -> exists s, delivered v0 (ioDrv st) s /\ drvEof (ioDrv st) = true /\
  chain D isOut inOut procIn same done l s (map (fD D) (gFlts D (ioGroup st))) (r ++ ioOutput st).
Proof.
  intros [(s & ph & Hg & Hd & Ha) He] E. destruct (He E) as [He1 He2]. destruct (ginv_done D isOut inOut procIn same done _ _ _ _ Hg He2) as (s' & -> & Hc).
  exists s'. split; [|auto]. unfold atInput in Ha. destruct (ioInput st) as [c|].
  - destruct (gSame (ioGroup st)); [destruct Ha as (_ & x & _ & [Ha|Ha])|]; discriminate.
  - destruct Ha as [Ha _]. injection Ha as ->. exact Hd.
Qed.
End R.

Hypotheses (Hsz : (0 < size)%nat) (Hb1 : fresh D same bufferNew) (Hb2 : isOut bufferNew = true).
Local Notation wB ds := (withBuffer D isOut bufferNew ds).
Lemma open_rI v0 ds : Forall (fresh D same) ds -> rI v0 (wB ds) (ioReadNewOpen D isOut bufferNew V size v0 ds) [] /\ Forall (fresh D same) (wB ds).
Proof.
  intros Hfr. destruct (open_ok D isOut inOut procIn same done bufferNew size ds Hsz Hfr Hb1 Hb2) as [Hg Hf]. split; [|exact Hf]. unfold rI, rinv, ioReadNewOpen. cbn [IoGroupModel.ioOutput IoGroupModel.ioGroup IoGroupModel.ioDrv IoGroupModel.ioInput IoGroupModel.ioEofAll app].
  split; [|discriminate]. exists [], (Idle []). split; [exact Hg|]. split; [constructor|]. reflexivity.
Qed.
Local Notation calls := (calls D isOut inOut procIn same done bufferNew V drvRead drvEof blk size).
Local Notation reads := (reads D isOut inOut procIn same done bufferNew V drvRead drvEof blk size).
Lemma calls_rI v0 ds st r : Forall (fresh D same) ds -> calls v0 ds st r -> rI v0 (wB ds) st r.
Proof.
  intros Hfr H. destruct (open_rI v0 ds Hfr) as [Ho Hf]. induction H as [|st r fuel cap buf st' a H IH E|st r fuel cap buf st' a H IH E|st r fuel allowEof st' line H IH E].
  - exact Ho.
  - destruct (read_ok v0 _ Hf _ _ _ _ _ _ _ IH E) as (x & Ex & Hx & _). apply app_inv_head in Ex. subst x. exact Hx.
  - destruct (small_ok v0 _ Hf _ _ _ _ _ _ _ IH E) as (x & Ex & Hx & _). apply app_inv_head in Ex. subst x. exact Hx.
  - destruct (line_ok v0 _ Hf _ _ _ _ _ _ IH E) as (_ & [[Hu Hx]|(Hu & _ & _ & _ & Hx)]).
    + destruct (ioUsed st'); [lia|]. exact Hx.
    + rewrite Hu. cbn. rewrite app_nil_r. exact Hx.
Qed.
Lemma reads_calls v0 ds st r : Forall (fresh D same) ds -> reads v0 ds st r -> calls v0 ds st r /\ ioOutput st = [].
Proof.
  intros Hfr H. destruct (open_rI v0 ds Hfr) as [_ Hf]. induction H as [|st r fuel cap st' a H [IH IH2] E]; [split; [constructor|reflexivity]|].
  split; [eapply (calls_read _ _ _ _ _ _ _ _ _ _ _ _ _ _ _ _ fuel cap []); [exact IH|exact E]|].
  destruct (read_ok v0 _ Hf _ _ _ _ _ _ _ (calls_rI _ _ _ _ Hfr IH) E) as (x & _ & _ & Hx & _). auto.
Qed.
End Read.
