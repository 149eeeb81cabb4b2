From Verif Require Import Base IoGroupModel IoGroupSpec.
Open Scope Z_scope.

Inductive phase := Idle (s : list Z) | Pend (s c : list Z) | End (s : list Z).

Section Proof.
Variables (D : Type) (isOut : D -> bool) (inOut : D -> option (list Z) -> nat -> D * list Z) (procIn : D -> list Z -> D) (same : D -> bool)
  (done : D -> option bool) (bufferNew : D).
Hypothesis Hok : filterOk D isOut inOut procIn same done.
Local Notation flt := (flt D).
Local Notation fD := (fD D).
Local Notation fFlush := (fFlush D).
Local Notation fCap := (fCap D).
Local Notation fOut := (fOut D).
Local Notation fDone := (fDone D same done).
Local Notation ran := (ran D inOut same).
Local Notation flushing := (flushing D inOut same done).
Local Notation took := (took D procIn).
Local Notation fwd := (fwd D isOut inOut procIn same done).
Local Notation fwdFrom := (fwdFrom D isOut inOut procIn same done).
Local Notation progress := (progress D inOut same).
Local Notation processInOut := (ioFilterProcessInOut D inOut same done).

Definition fst_ok (ph : phase) (d0 : D) (f : flt) (o : list Z) : Prop :=
  match ph with
  | Idle s => fFlush f = false /\ ran d0 (fD f) s None o
  | Pend s c => fFlush f = false /\ ran d0 (fD f) s (Some c) o
  | End s => fFlush f = true /\ flushing d0 (fD f) s o
  end.
Definition in_ok (ph : phase) (d0 : D) (f : flt) : Prop :=
  match ph with
  | Idle s => fFlush f = false /\ took d0 (fD f) s
  | Pend s c => fFlush f = false /\ took d0 (fD f) (s ++ c)
  | End s => fFlush f = true /\ took d0 (fD f) s
  end.
Definition link (f : flt) (o : list Z) (ph : phase) : Prop :=
  match ph with
  | Idle s => exists b, fOut f = Some b /\ o = s ++ b /\ (length b < fCap f)%nat /\ (b = [] \/ fDone f = false)
  | Pend s c => fOut f = Some c /\ o = s ++ c /\ (0 < fCap f)%nat
  | End s => fOut f = None /\ o = s /\ fDone f = true
  end.
Definition lastOk (w0 t0 : list Z) (cap : nat) (f : flt) (t : list Z) : Prop :=
  fCap f = cap /\ exists a, t = t0 ++ a /\ (fOut f = Some (w0 ++ a) \/ fOut f = None /\ w0 ++ a = [] /\ fDone f = true).
Section Inv.
Variables (w0 t0 : list Z) (cap : nat).
Fixpoint inv (ph : phase) (ds : list D) (fs : list flt) (t : list Z) : Prop :=
  match ds, fs with
  | d :: ds, f :: fs => isOut (fD f) = isOut d /\
      if isOut d then exists o, fst_ok ph d f o /\
        match ds with
        | [] => fs = [] /\ o = t /\ lastOk w0 t0 cap f t
        | _ => exists ph', link f o ph' /\ inv ph' ds fs t
        end
      else in_ok ph d f /\ inv ph ds fs t
  | _, _ => False
  end.
Definition ns (f : flt) : Prop := same (fD f) = false.

Lemma ran_pend d0 d s c o : ran d0 d s (Some c) o -> same d = true /\ c <> [].
Proof.
  intros H. remember (Some c) as p eqn:E. revert c E. induction H as [|d s o c n d' a H IH Hc Hn E|d s o c n d' a H IH Hn E]; intros c0 E0; [discriminate| |].
  - destruct (same d'); [|discriminate]. injection E0 as <-. auto.
  - destruct (same d'); [|discriminate]. injection E0 as <-. split; [reflexivity|]. exact (proj2 (IH c eq_refl)).
Qed.
Lemma ran_idle d0 d s o : fresh D same d0 -> ran d0 d s None o -> same d = false.
Proof. intros F H. inversion H as [|d1 s1 o1 c n d' a H1 Hc Hn E|d1 s1 o1 c n d' a H1 Hn E]; subst; [exact F| |]; destruct (same d); congruence. Qed.
Lemma quiet_not_pend ds fs s c t : inv (Pend s c) ds fs t -> Forall ns fs -> False.
Proof.
  revert fs. induction ds as [|d ds IH]; intros [|f fs] H Hn; try (destruct H; fail). cbn [inv] in H. destruct H as [Ho H]. inversion Hn; subst.
  destruct (isOut d).
  - destruct H as (o & Hf & _). destruct Hf as [_ Hr]. apply ran_pend in Hr. unfold ns in *. destruct Hr. congruence.
  - destruct H as [_ H]. eapply IH; eassumption.
Qed.
Definition offered (ph : phase) (inp : option (list Z)) (s : list Z) : Prop :=
  match inp with Some c => c <> [] /\ (ph = Idle s \/ ph = Pend s c) | None => ph = Idle s \/ ph = End s end.
Definition after (inp : option (list Z)) (s : list Z) (sm : bool) : phase :=
  match inp with Some c => if sm then Pend s c else Idle (s ++ c) | None => End s end.

Lemma out_step d f o w ph inp s g : fst_ok ph d f o -> fOut f = Some w -> (length w < fCap f)%nat -> fDone f = false -> offered ph inp s -> processInOut f inp = Ok g ->
  exists a, fOut g = Some (w ++ a) /\ fCap g = fCap f /\ isOut (fD g) = isOut (fD f) /\ fst_ok (after inp s (same (fD g))) d g (o ++ a) /\
    (inp <> None -> fDone g = false).
Proof.
  intros Hf Hw Hl Hd Hi E. unfold ioFilterProcessInOut in E. rewrite Hw in E. cbn [bind] in E.
  destruct inp as [c|].
  - destruct Hi as [Hc Hph]. destruct c as [|x c]; [congruence|]. assert (Hfl : fFlush f = false) by (destruct Hph; subst; apply Hf).
    rewrite Hfl in E. cbn [andb orb isSomeB negb] in E. unfold IoGroupModel.fDone in E. cbn [IoGroupModel.fFlush] in E.
    destruct (inOut (fD f) (Some (x :: c)) (fCap f - length w)) as [d' a] eqn:Ei.
    match type of E with (if ?b then _ else _) = _ => destruct b; [discriminate|] end. injection E as <-. cbn [IoGroupModel.fOut IoGroupModel.fCap IoGroupModel.fD IoGroupModel.fFlush].
    exists a. split; [reflexivity|]. split; [reflexivity|]. split; [pose proof (proj1 Hok (fD f) (Some (x :: c)) (fCap f - length w)%nat) as K; rewrite Ei in K; exact K|]. split.
    + assert (Hn : (0 < fCap f - length w)%nat) by lia.
      assert (K : ran d d' (if same d' then s else s ++ x :: c) (if same d' then Some (x :: c) else None) (o ++ a)).
      { destruct Hph; subst ph; destruct Hf as [_ Hr]; [eapply ran_piece|eapply ran_again]; eassumption. }
      cbn [after]. destruct (same d'); cbn [fst_ok IoGroupModel.fD IoGroupModel.fFlush]; split; first [reflexivity|exact K].
    + intros _. reflexivity.
  - cbn [isSomeB negb andb] in E. rewrite andb_false_r, orb_true_r in E.
    assert (Hr : flushing d (fD f) s o). { destruct Hi; subst ph; destruct Hf as [_ Hr]; [apply flush_start, Hr|exact Hr]. }
    unfold IoGroupModel.fDone in E. cbn [IoGroupModel.fFlush IoGroupModel.fD] in E. cbn [after].
    destruct (finished D same done (fD f)) eqn:Efin.
    + match type of E with (if ?b then _ else _) = _ => destruct b; [discriminate|] end. injection E as <-. exists []. rewrite !app_nil_r. cbn [IoGroupModel.fOut IoGroupModel.fCap IoGroupModel.fD IoGroupModel.fFlush fst_ok].
      split; [reflexivity|]. split; [reflexivity|]. split; [reflexivity|]. split; [split; [reflexivity|exact Hr]|congruence].
    + destruct (inOut (fD f) None (fCap f - length w)) as [d' a] eqn:Ei.
      match type of E with (if ?b then _ else _) = _ => destruct b; [discriminate|] end. injection E as <-. exists a. cbn [IoGroupModel.fOut IoGroupModel.fCap IoGroupModel.fD IoGroupModel.fFlush fst_ok].
      split; [reflexivity|]. split; [reflexivity|]. split; [pose proof (proj1 Hok (fD f) None (fCap f - length w)%nat) as K; rewrite Ei in K; exact K|].
      split; [split; [reflexivity|]|congruence]. eapply flush_step; [exact Hr|exact Efin| |exact Ei]. lia.
Qed.
Lemma lastOut_cons f r : r <> [] -> lastOut D (f :: r) = lastOut D r. Proof. destruct r; [congruence|reflexivity]. Qed.
Lemma inv_ne ph ds fs t : inv ph ds fs t -> fs <> []. Proof. destruct ds, fs; intros H; try (destruct H; fail); discriminate. Qed.

Definition inputAfter (loc : bool) (inp : option (list Z)) (sm : bool) : option (list Z) :=
  match inp with Some c => if sm then Some c else if loc then Some [] else Some c | None => None end.
Lemma fst_ok_setOut ph d f o x : fst_ok ph d (setOut D f x) o <-> fst_ok ph d f o. Proof. destruct ph; reflexivity. Qed.

Lemma fwd_ok : forall ds fs loc inp ph s t fs' inp' sm, inv ph ds fs t -> offered ph inp s ->
  Forall ns (match fs with f :: r => if isOut (fD f) then r else fs | [] => [] end) -> (length (lastOut D fs) < cap)%nat ->
  fwd fs loc inp = Ok (fs', inp', sm) ->
  exists smf t', inv (after inp s smf) ds fs' t' /\ inp' = inputAfter loc inp smf.
Proof.
  induction ds as [|d ds IH]; intros [|f fs] loc inp ph s t fs' inp' sm H Hi Hq Hroom E; try (destruct H; fail).
  cbn [inv] in H. destruct H as [Ho H]. cbn [IoGroupModel.fwd] in E. rewrite Ho in E, Hq. destruct (isOut d) eqn:Ed.
  - (* a filter with output *)
    destruct H as (o & Hf & Hrest).
    (* what follows once the output is full or the filter is done *)
    assert (Next : forall g o' (inp1 inp2 : option (list Z)) sb sm1 fs1, fst_ok (after inp s sb) d g o' -> isOut (fD g) = true -> fCap g = fCap f ->
      (fDone g = true \/ outFull D g = true) ->
      match ds with
      | [] => lastOk w0 t0 cap g o' /\ fs = []
      | _ => exists ph', inv ph' ds fs t /\ (fDone g = true \/ (fDone f = false)) /\
          match ph' with
          | Idle s' => exists b, fOut g = Some b /\ o' = s' ++ b /\ (0 < fCap g)%nat /\ (b = [] -> fDone g = true)
          | Pend _ _ => False
          | End s' => fOut g = None /\ o' = s' /\ fDone g = true
          end
      end ->
      (let* (r', o, s') := fwd fs true (fOut (if isSomeB (fOut g) && fDone g && outZero D g then setOut D g None else g)) in
       Ok (setOut D (if isSomeB (fOut g) && fDone g && outZero D g then setOut D g None else g) o :: r', inp1, s')) = Ok (fs1, inp2, sm1) ->
      inp2 = inp1 /\ exists t', inv (after inp s sb) (d :: ds) fs1 t').
    { clear E. intros g o' inp1 inp2 sb sm1 fs1 Hg Hgo Hgc Hgd Hgr Eg.
      match type of Eg with context [fwd fs true ?x] => destruct (fwd fs true x) as [[[r' o1] s1]| |] eqn:Ef end; cbn [bind] in Eg; try discriminate. injection Eg as <- <- <-. split; [reflexivity|].
      destruct ds as [|d1 ds'].
      - destruct Hgr as [Hla ->]. cbn [IoGroupModel.fwd] in Ef. injection Ef as <- <- <-. exists o'. cbn [inv]. rewrite Ed.
        split; [destruct (isSomeB _ && _ && _); exact Hgo|]. exists o'. split; [apply fst_ok_setOut; destruct (isSomeB _ && _ && _); [apply fst_ok_setOut|]; exact Hg|].
        split; [reflexivity|]. split; [reflexivity|]. destruct Hla as (Hc & a & Ht & Hw).
        destruct (isSomeB (fOut g) && fDone g && outZero D g) eqn:Ez.
        + apply andb_prop in Ez as [Ez Ez2]. apply andb_prop in Ez as [_ Ez1]. split; [exact Hc|]. exists a. split; [exact Ht|]. right. split; [reflexivity|]. split; [|exact Ez1].
          unfold outZero in Ez2. destruct Hw as [Hw|(Hw & Hw2 & _)]; [|exact Hw2]. rewrite Hw in Ez2. destruct (w0 ++ a); [reflexivity|discriminate].
        + split; [exact Hc|]. exists a. split; [exact Ht|]. exact Hw.
      - destruct Hgr as (ph' & Hinv & Hdf & Hm). pose proof (inv_ne _ _ _ _ Hinv) as Hne. rewrite lastOut_cons in Hroom by exact Hne.
        assert (Q : Forall ns match fs with f0 :: r => if isOut (fD f0) then r else fs | [] => [] end). { clear -Hq. destruct fs; [constructor|]. destruct (isOut _); [inversion Hq; assumption|exact Hq]. }
        destruct ph' as [s'|s' c'|s']; [|destruct Hm|].
        + destruct Hm as (b & Hb & Ho' & Hcap & Hbz). rewrite Hb in *. cbn [isSomeB andb] in *. destruct (fDone g && outZero D g) eqn:Ez.
          * apply andb_prop in Ez as [Ez1 Ez2]. unfold outZero in Ez2. rewrite Hb in Ez2. destruct b; [|discriminate]. rewrite app_nil_r in Ho'. cbn [IoGroupModel.fOut setOut] in Ef.
            destruct (IH fs true None (Idle s') s' t r' o1 s1 Hinv (or_introl eq_refl) Q Hroom Ef) as (smf & t' & Hinv' & ->). exists t'. cbn [inv]. rewrite Ed. split; [exact Hgo|].
            exists o'. split; [apply fst_ok_setOut, fst_ok_setOut; exact Hg|]. exists (End s'). split; [split; [reflexivity|split; [exact Ho'|exact Ez1]]|exact Hinv'].
          * rewrite Hb in Ef.
            assert (Hbne : b <> []). { intros ->. rewrite (Hbz eq_refl) in Ez. unfold outZero in Ez. rewrite Hb in Ez. discriminate. }
            destruct (IH fs true (Some b) (Idle s') s' t r' o1 s1 Hinv (conj Hbne (or_introl eq_refl)) Q Hroom Ef) as (smf & t' & Hinv' & ->). exists t'. cbn [inv]. rewrite Ed. split; [exact Hgo|].
            exists o'. split; [apply fst_ok_setOut; exact Hg|]. destruct smf; cbn [after inputAfter] in *.
            -- exists (Pend s' b). split; [|exact Hinv']. split; [reflexivity|]. split; [exact Ho'|exact Hcap].
            -- exists (Idle (s' ++ b)). split; [|exact Hinv']. exists []. split; [reflexivity|]. split; [rewrite app_nil_r; exact Ho'|]. split; [exact Hcap|now left].
        + destruct Hm as (Hb & Ho' & Hgd'). rewrite Hb in *. cbn [isSomeB andb] in *. rewrite Hb in Ef.
          destruct (IH fs true None (End s') s' t r' o1 s1 Hinv (or_intror eq_refl) Q Hroom Ef) as (smf & t' & Hinv' & ->). exists t'. cbn [inv]. rewrite Ed. split; [exact Hgo|].
          exists o'. split; [apply fst_ok_setOut; exact Hg|]. exists (End s'). split; [|exact Hinv']. split; [reflexivity|]. split; [exact Ho'|exact Hgd']. }
    destruct (fDone f) eqn:Edone.
    + (* done already *)
      assert (Hfl : fFlush f = true) by (unfold IoGroupModel.fDone in Edone; destruct (fFlush f); [reflexivity|discriminate]).
      assert (Hph : ph = End s /\ inp = None). { destruct inp as [c|]; [destruct Hi as [_ [->| ->]]; destruct Hf; congruence|]. destruct Hi as [->| ->]; [destruct Hf; congruence|auto]. }
      destruct Hph as [-> ->].
      match type of E with context [fwd fs true ?x] => destruct (fwd fs true x) as [[[r' o1] s1]| |] eqn:Ef end; cbn [bind] in E; try discriminate. injection E as <- <- <-.
      destruct (Next f o None None false s1 (setOut D (if isSomeB (fOut f) && fDone f && outZero D f then setOut D f None else f) o1 :: r')) as [_ (t' & Ht')].
      * exact Hf.
      * exact Ho.
      * reflexivity.
      * left. exact Edone.
      * destruct ds as [|d1 ds']; [destruct Hrest as (-> & -> & Hl); auto|]. destruct Hrest as (ph' & Hl & Hinv). exists ph'. split; [exact Hinv|]. split; [left; exact Edone|].
        destruct ph' as [s'|s' c'|s'].
        -- destruct Hl as (b & Hb & Ho' & Hc & Hbz). exists b. split; [exact Hb|]. split; [exact Ho'|]. split; [lia|]. intros _. exact Edone.
        -- eapply quiet_not_pend; eassumption.
        -- exact Hl.
      * rewrite Edone, Ef. cbn [bind]. reflexivity.
      * exists false, t'. split; [|reflexivity]. rewrite Edone in Ht'. exact Ht'.
    + (* to be processed *)
      destruct (processInOut f inp) as [g| |] eqn:Ep; cbn [bind] in E; try discriminate.
      assert (Hw : exists w, fOut f = Some w /\ (length w < fCap f)%nat).
      { destruct ds as [|d1 ds'].
        - destruct Hrest as (-> & -> & Hc & a & _ & Hw). destruct Hw as [Hw|(_ & _ & Hw)]; [|congruence]. exists (w0 ++ a). split; [exact Hw|]. cbn [IoGroupModel.lastOut] in Hroom. rewrite Hw in Hroom. rewrite Hc. exact Hroom.
        - destruct Hrest as (ph' & Hl & Hinv). destruct ph' as [s'|s' c'|s'].
          + destruct Hl as (b & Hb & _ & Hc & _). eauto.
          + exfalso. eapply quiet_not_pend; eassumption.
          + destruct Hl as (_ & _ & Hl). congruence. }
      destruct Hw as (w & Hw & Hwl). destruct (out_step d f o w ph inp s g Hf Hw Hwl Edone Hi Ep) as (a & Ga & Gc & Go & Gf & _).
      set (inp1 := if same (fD g) then inp else if loc then bufZero inp else inp) in E.
      assert (Einp : inp1 = inputAfter loc inp (same (fD g))) by (unfold inp1, inputAfter; destruct inp, (same (fD g)), loc; reflexivity).
      destruct (negb (outFull D g) && negb (fDone g)) eqn:Ebr.
      * injection E as <- <- <-. apply andb_prop in Ebr as [B1 B2]. apply negb_true_iff in B1, B2. unfold outFull in B1. rewrite Ga in B1. apply Nat.leb_gt in B1.
        destruct ds as [|d1 ds'].
        -- destruct Hrest as (-> & -> & Hc & a' & Ht & Hwa). destruct Hwa as [Hwa|(_ & _ & Hwa)]; [|congruence]. assert (w = w0 ++ a') by congruence. subst w.
           exists (same (fD g)), (t ++ a). split; [|exact Einp]. cbn [inv]. rewrite Ed. split; [congruence|]. exists (t ++ a). split; [exact Gf|]. split; [reflexivity|]. split; [reflexivity|].
           split; [congruence|]. exists (a' ++ a). rewrite Ht, <- app_assoc. split; [reflexivity|]. left. rewrite Ga, <- app_assoc. reflexivity.
        -- destruct Hrest as (ph' & Hl & Hinv). exists (same (fD g)), t. split; [|exact Einp]. cbn [inv]. rewrite Ed. split; [congruence|]. exists (o ++ a). split; [exact Gf|].
           destruct ph' as [s'|s' c'|s'].
           ++ destruct Hl as (b & Hb & Ho' & Hc & Hbz). exists (Idle s'). split; [|exact Hinv]. assert (b = w) by congruence. subst b. exists (w ++ a). split; [exact Ga|].
              split; [rewrite Ho', <- app_assoc; reflexivity|]. split; [exact B1|right; exact B2].
           ++ exfalso. eapply quiet_not_pend; eassumption.
           ++ destruct Hl as (_ & _ & Hl). congruence.
      * match type of E with context [fwd fs true ?x] => destruct (fwd fs true x) as [[[r' o1] s1]| |] eqn:Ef end; cbn [bind] in E; try discriminate. injection E as <- <- <-.
        assert (Hfd : fDone g = true \/ outFull D g = true) by (destruct (fDone g), (outFull D g); auto; discriminate).
        destruct (Next g (o ++ a) inp1 inp1 (same (fD g)) s1 (setOut D (if isSomeB (fOut g) && fDone g && outZero D g then setOut D g None else g) o1 :: r')) as [_ (t' & Ht')].
        -- exact Gf.
        -- congruence.
        -- exact Gc.
        -- exact Hfd.
        -- destruct ds as [|d1 ds'].
           ++ destruct Hrest as (-> & -> & Hc & a' & Ht & Hwa). destruct Hwa as [Hwa|(_ & _ & Hwa)]; [|congruence]. assert (w = w0 ++ a') by congruence. subst w. split; [|reflexivity].
              split; [congruence|]. exists (a' ++ a). rewrite Ht, <- app_assoc. split; [reflexivity|]. left. rewrite Ga, <- app_assoc. reflexivity.
           ++ destruct Hrest as (ph' & Hl & Hinv). exists ph'. split; [exact Hinv|]. split; [right; reflexivity|]. destruct ph' as [s'|s' c'|s'].
              ** destruct Hl as (b & Hb & Ho' & Hc & Hbz). assert (b = w) by congruence. subst b. exists (w ++ a). split; [exact Ga|]. split; [rewrite Ho', <- app_assoc; reflexivity|]. split; [lia|].
                 intros Hz. destruct Hfd as [Hfd|Hfd]; [exact Hfd|]. unfold outFull in Hfd. rewrite Ga, Hz, Gc in Hfd. apply Nat.leb_le in Hfd. cbn [length] in Hfd. lia.
              ** eapply quiet_not_pend; eassumption.
              ** destruct Hl as (_ & _ & Hl). congruence.
        -- rewrite Ef. cbn [bind]. reflexivity.
        -- exists (same (fD g)), t'. split; [exact Ht'|exact Einp].
  - (* a filter without output *)
    destruct H as [Hf Hinv]. pose proof (inv_ne _ _ _ _ Hinv) as Hne. rewrite lastOut_cons in Hroom by exact Hne.
    destruct (if fDone f then Ok f else ioFilterProcessIn D procIn f inp) as [g| |] eqn:Eg; cbn [bind] in E; try discriminate.
    destruct (fwd fs loc inp) as [[[r' o1] s1]| |] eqn:Ef; cbn [bind] in E; try discriminate. injection E as <- <- <-.
    assert (Q : Forall ns match fs with f0 :: r => if isOut (fD f0) then r else fs | [] => [] end).
    { clear -Hq. inversion Hq as [|x l _ Hr]; subst. destruct fs; [constructor|]. destruct (isOut _); [inversion Hr; assumption|exact Hr]. }
    destruct (IH fs loc inp ph s t r' o1 s1 Hinv Hi Q Hroom Ef) as (smf & t' & Hinv' & ->). exists smf, t'. split; [|reflexivity]. cbn [inv]. rewrite Ed.
    assert (Hp : forall s c, ph <> Pend s c). { intros s0 c0 ->. inversion Hq; subst. eapply quiet_not_pend; eassumption. }
    assert (K : isOut (fD g) = false /\ in_ok (after inp s smf) d g); [|destruct K; auto].
    destruct (fDone f) eqn:Edone.
    + injection Eg as <-. assert (Hfl : fFlush f = true) by (unfold IoGroupModel.fDone in Edone; destruct (fFlush f); [reflexivity|discriminate]).
      destruct inp as [c|]; [destruct Hi as [_ [->| ->]]; destruct Hf; congruence|]. destruct Hi as [->| ->]; [destruct Hf; congruence|]. split; [exact Ho|exact Hf].
    + unfold ioFilterProcessIn in Eg. destruct inp as [c|].
      * destruct Hi as [Hc [->| ->]]; [|exfalso; eapply Hp; reflexivity]. destruct Hf as [Hfl Ht]. destruct c as [|x c]; [congruence|]. rewrite Hfl in Eg. cbn [andb] in Eg. injection Eg as <-.
        cbn [IoGroupModel.fD]. split; [rewrite (proj1 (proj2 Hok)); exact Ho|].
        assert (T : took d (procIn (fD f) (x :: c)) (s ++ x :: c)) by (apply took_piece; assumption).
        cbn [after]. destruct smf; split; first [reflexivity|exact T].
      * rewrite andb_false_r in Eg. injection Eg as <-. split; [exact Ho|]. destruct Hi as [->| ->]; destruct Hf as [_ Ht]; split; first [reflexivity|exact Ht].
Qed.

(** Nothing but the check of the filters can fail. *)
Lemma fwd_total : (forall d i n, (0 < n)%nat -> same (fst (inOut d i n)) = true -> snd (inOut d i n) <> []) ->
  forall ds fs loc inp ph s t, inv ph ds fs t -> offered ph inp s ->
  Forall ns (match fs with f :: r => if isOut (fD f) then r else fs | [] => [] end) -> (length (lastOut D fs) < cap)%nat ->
  exists r, fwd fs loc inp = Ok r.
Proof.
  intros Hpr. induction ds as [|d ds IH]; intros [|f fs] loc inp ph s t H Hi Hq Hroom; try (destruct H; fail).
  cbn [inv] in H. destruct H as [Ho H]. cbn [IoGroupModel.fwd]. rewrite Ho in *. destruct (isOut d) eqn:Ed.
  - destruct H as (o & Hf & Hrest).
    assert (Next : forall g (inp1 : option (list Z)) sb, (fDone g = true \/ outFull D g = true /\ (0 < fCap g)%nat) ->
      match ds with
      | [] => fs = []
      | _ => exists ph', inv ph' ds fs t /\ match ph' with Idle s' => fOut g <> None | Pend _ _ => False | End s' => fOut g = None end
      end ->
      exists r, (let* (r', o, s') := fwd fs true (fOut (if isSomeB (fOut g) && fDone g && outZero D g then setOut D g None else g)) in
       Ok (setOut D (if isSomeB (fOut g) && fDone g && outZero D g then setOut D g None else g) o :: r', inp1, sb || s')) = Ok r).
    { intros g inp1 sb Hgd Hgr. destruct ds as [|d1 ds']; [subst fs; cbn [IoGroupModel.fwd bind]; eauto|].
      destruct Hgr as (ph' & Hinv & Hm). pose proof (inv_ne _ _ _ _ Hinv) as Hne. rewrite lastOut_cons in Hroom by exact Hne.
      assert (Q : Forall ns match fs with f0 :: r => if isOut (fD f0) then r else fs | [] => [] end). { clear -Hq. destruct fs; [constructor|]. destruct (isOut _); [inversion Hq; assumption|exact Hq]. }
      assert (K : exists s', offered ph' (fOut (if isSomeB (fOut g) && fDone g && outZero D g then setOut D g None else g)) s').
      { destruct ph' as [s'|s' c'|s']; [|destruct Hm|].
        - exists s'. destruct (fOut g) as [b|] eqn:Hb; [|congruence]. cbn [isSomeB andb]. unfold outZero, outFull in *. rewrite Hb in *. destruct b as [|x b].
          + destruct Hgd as [->|[Hgd Hcap]]; [|apply Nat.leb_le in Hgd; cbn in Hgd; lia]. cbn. now left.
          + rewrite andb_false_r, Hb. cbn. split; [discriminate|now left].
        - exists s'. rewrite Hm. cbn [isSomeB andb]. rewrite Hm. cbn. now right. }
      destruct K as (s' & K). destruct (IH fs true _ ph' s' t Hinv K Q Hroom) as ([[r' o1] s1] & ->). cbn [bind]. eauto. }
    destruct (fDone f) eqn:Edone.
    + assert (K : match ds with [] => fs = [] | _ => exists ph', inv ph' ds fs t /\ match ph' with Idle s' => fOut f <> None | Pend _ _ => False | End s' => fOut f = None end end).
      { destruct ds as [|d1 ds']; [destruct Hrest as (-> & _); reflexivity|]. destruct Hrest as (ph' & Hl & Hinv). exists ph'. split; [exact Hinv|]. destruct ph' as [s'|s' c'|s'].
        - destruct Hl as (b & -> & _). discriminate.
        - eapply quiet_not_pend; eassumption.
        - apply Hl. }
      pose proof (Next f inp false (or_introl Edone) K) as N. rewrite Edone in N. exact N.
    + assert (Hw : exists w, fOut f = Some w /\ (length w < fCap f)%nat).
      { destruct ds as [|d1 ds'].
        - destruct Hrest as (-> & -> & Hc & a & _ & Hw). destruct Hw as [Hw|(_ & _ & Hw)]; [|congruence]. exists (w0 ++ a). split; [exact Hw|]. cbn [IoGroupModel.lastOut] in Hroom. rewrite Hw in Hroom. rewrite Hc. exact Hroom.
        - destruct Hrest as (ph' & Hl & Hinv). destruct ph' as [s'|s' c'|s'].
          + destruct Hl as (b & Hb & _ & Hc & _). eauto.
          + exfalso. eapply quiet_not_pend; eassumption.
          + destruct Hl as (_ & _ & Hl). congruence. }
      destruct Hw as (w & Hw & Hwl).
      assert (Hp : exists g, processInOut f inp = Ok g).
      { unfold ioFilterProcessInOut. rewrite Hw. assert (Hn : (0 < fCap f - length w)%nat) by lia. pose proof (Hpr (fD f) inp (fCap f - length w)%nat Hn) as P.
        replace (match inp with Some [] => true | _ => false end) with false by (destruct inp as [[|]|]; [destruct Hi; congruence|reflexivity..]).
        replace (fFlush f && isSomeB inp) with false.
        2: { destruct inp as [c|]; [|now rewrite andb_false_r]. destruct Hi as [_ [->| ->]]; destruct Hf as [-> _]; reflexivity. }
        set (f1 := mkFlt D (fD f) _ _ _). destruct (fDone f1) eqn:E1.
        - assert (Hs : same (fD f) = false).
          { unfold IoGroupModel.fDone in E1. cbn in E1. destruct (fFlush f || negb (isSomeB inp)); [|discriminate]. unfold finished in E1. destruct (done (fD f)) as [[|]|] eqn:E2; try discriminate.
            - apply Hok in E2. exact E2.
            - destruct (same (fD f)); [discriminate|reflexivity]. }
          cbn [IoGroupModel.fD f1]. rewrite Hs. cbn [andb]. eauto.
        - destruct (inOut (fD f) inp (fCap f - length w)) as [d' a]. cbn [IoGroupModel.fD IoGroupModel.fOut fst snd] in *. destruct (same d') eqn:Es; cbn [andb]; [|eauto].
          specialize (P eq_refl). destruct (w ++ a) eqn:Ea; [apply app_eq_nil in Ea as [_ ->]; congruence|]. eauto. }
      destruct Hp as (g & Ep). rewrite Ep. cbn [bind]. destruct (out_step d f o w ph inp s g Hf Hw Hwl Edone Hi Ep) as (a & Ga & Gc & Go & Gf & _).
      destruct (negb (outFull D g) && negb (fDone g)) eqn:Ebr; [eauto|]. apply Next.
      * destruct (fDone g); [now left|]. right. destruct (outFull D g); [|discriminate]. split; [reflexivity|lia].
      * destruct ds as [|d1 ds']; [destruct Hrest as (-> & _); reflexivity|]. destruct Hrest as (ph' & Hl & Hinv). exists ph'. split; [exact Hinv|]. destruct ph' as [s'|s' c'|s'].
        -- rewrite Ga. discriminate.
        -- eapply quiet_not_pend; eassumption.
        -- destruct Hl as (_ & _ & Hl). congruence.
  - destruct H as [Hf Hinv].
    assert (Hp : exists g, (if fDone f then Ok f else ioFilterProcessIn D procIn f inp) = Ok g).
    { destruct (fDone f) eqn:E1; [eauto|]. unfold ioFilterProcessIn.
      replace (match inp with Some [] => true | _ => false end) with false by (destruct inp as [[|]|]; [destruct Hi; congruence|reflexivity..]).
      replace (fFlush f && isSomeB inp) with false; [destruct inp; eauto|].
      destruct inp as [c|]; [|now rewrite andb_false_r]. destruct Hi as [_ [->| ->]]; destruct Hf as [-> _]; reflexivity. }
    destruct Hp as (g & ->). cbn [bind]. pose proof (inv_ne _ _ _ _ Hinv) as Hne. rewrite lastOut_cons in Hroom by exact Hne.
    destruct (IH fs loc inp ph s t Hinv Hi) as ([[r' o1] s1] & ->); [|exact Hroom|cbn [bind]; eauto].
    inversion Hq; subst. destruct fs as [|f1 fs]; [constructor|]. destruct (isOut (fD f1)); [|assumption]. match goal with H : Forall ns (_ :: _) |- _ => inversion H; assumption end.
Qed.

Lemma lastSame_none fs : lastSame D same fs = None <-> Forall ns fs.
Proof.
  induction fs as [|f fs IH]; cbn [lastSame]; [split; [constructor|reflexivity]|]. destruct (lastSame D same fs) as [k|].
  - split; [discriminate|]. intros H. inversion H as [|x l H1 H2]; subst. apply IH in H2. discriminate.
  - assert (Hf : Forall ns fs) by (apply IH; reflexivity). destruct (same (fD f)) eqn:E; split; intros H; try discriminate.
    + inversion H; subst. unfold ns in *. congruence.
    + constructor; assumption.
    + reflexivity.
Qed.
Definition cur (ph : phase) (inp : option (list Z)) : Prop := match ph with Idle _ => True | Pend _ c => inp = Some c | End _ => inp = None end.
Definition moved (loc : bool) (ph ph' : phase) (inp inp' : option (list Z)) : Prop :=
  ph' = ph /\ inp' = inp \/ exists s c, ph = Pend s c /\ ph' = Idle (s ++ c) /\ inp' = if loc then Some [] else inp.
Lemma from_ok : forall k ds fs loc inp ph t fs' inp' sm, Forall (fresh D same) ds -> inv ph ds fs t -> lastSame D same fs = Some k -> cur ph inp ->
  (length (lastOut D fs) < cap)%nat -> fwdFrom k fs loc inp = Ok (fs', inp', sm) ->
  exists ph' t', inv ph' ds fs' t' /\ moved loc ph ph' inp inp'.
Proof.
  induction k as [|k IH]; intros [|d ds] [|f fs] loc inp ph t fs' inp' sm Hfr H Hk Hc Hroom E; try (destruct H; fail); cbn [lastSame] in Hk; cbn [IoGroupModel.fwdFrom] in E;
    (inversion Hfr as [|x l Hd Hfr']; subst).
  - destruct (lastSame D same fs) as [k|] eqn:Ek; [discriminate|]. destruct (same (fD f)) eqn:Es; [|discriminate]. apply lastSame_none in Ek.
    assert (Ho : isOut (fD f) = true). { destruct (isOut (fD f)) eqn:Ho; [reflexivity|]. destruct Hok as (_ & _ & _ & _ & K). destruct (K _ Ho). congruence. }
    assert (Ph : exists s, offered ph inp s).
    { cbn [inv] in H. destruct H as [H1 H2]. rewrite <- H1, Ho in H2. destruct H2 as (o & Hf & _). destruct ph as [s|s c|s]; cbn [cur] in Hc.
      - destruct Hf as [_ Hf]. apply ran_idle in Hf; [congruence|exact Hd].
      - destruct Hf as [_ Hf]. apply ran_pend in Hf. subst inp. exists s. cbn. tauto.
      - subst inp. exists s. right. reflexivity. }
    destruct Ph as (s & Hoff). destruct (fwd_ok _ _ loc inp ph s t fs' inp' sm H Hoff) as (smf & t' & Hinv & ->); [rewrite Ho; exact Ek|exact Hroom|exact E|].
    exists (after inp s smf), t'. split; [exact Hinv|]. unfold moved. destruct inp as [c|].
    + assert (ph = Pend s c).
      { destruct Hoff as [_ [->| ->]]; [|reflexivity]. cbn [inv] in H. destruct H as [H1 H2]. rewrite <- H1, Ho in H2. destruct H2 as (o & [_ Hf] & _). apply ran_idle in Hf; [congruence|exact Hd]. }
      subst ph. destruct smf; cbn [after inputAfter]; [now left|]. right. exists s, c. destruct loc; auto.
    + cbn [after inputAfter]. left. destruct Hoff as [->| ->]; [|auto]. cbn [inv] in H. destruct H as [H1 H2]. rewrite <- H1, Ho in H2. destruct H2 as (o & [_ Hf] & _). apply ran_idle in Hf; [congruence|exact Hd].
  - destruct (lastSame D same fs) as [k'|] eqn:Ek; [|destruct (same (fD f)); discriminate]. injection Hk as ->.
    pose proof H as H0. cbn [inv] in H. destruct H as [H1 H2]. rewrite H1 in E. destruct (isOut d) eqn:Ed.
    + destruct H2 as (o & Hf & Hr). destruct ds as [|d1 ds']; [destruct Hr as (-> & _); discriminate|]. destruct Hr as (ph1 & Hl & Hinv).
      destruct (fwdFrom k fs true (fOut f)) as [[[r' o1] s1]| |] eqn:Ef; cbn [bind] in E; try discriminate. injection E as <- <- <-.
      pose proof (inv_ne _ _ _ _ Hinv) as Hne. rewrite lastOut_cons in Hroom by exact Hne.
      destruct (IH (d1 :: ds') fs true (fOut f) ph1 t r' o1 s1 Hfr' Hinv Ek) as (ph2 & t' & Hinv2 & Hm); [destruct ph1 as [s'|s' c'|s']; cbn; [exact I|destruct Hl; auto..]|exact Hroom|exact Ef|].
      exists ph, t'. split; [|now left]. cbn [inv]. rewrite Ed. split; [exact H1|]. exists o. split; [apply fst_ok_setOut; exact Hf|]. exists ph2. split; [|exact Hinv2].
      destruct Hm as [[-> ->]|(s' & c' & -> & -> & ->)].
      * destruct ph1; exact Hl.
      * destruct Hl as (_ & Ho & Hcap). exists []. split; [reflexivity|]. split; [rewrite app_nil_r; exact Ho|]. split; [exact Hcap|now left].
    + destruct H2 as [Hf Hinv]. destruct (fwdFrom k fs loc inp) as [[[r' o1] s1]| |] eqn:Ef; cbn [bind] in E; try discriminate. injection E as <- <- <-.
      pose proof (inv_ne _ _ _ _ Hinv) as Hne. rewrite lastOut_cons in Hroom by exact Hne.
      destruct (IH ds fs loc inp ph t r' o1 s1 Hfr' Hinv Ek Hc Hroom Ef) as (ph2 & t' & Hinv2 & Hm). exists ph2, t'. split; [|exact Hm]. cbn [inv]. rewrite Ed. split; [exact H1|]. split; [|exact Hinv2].
      destruct Hm as [[-> _]|(s' & c' & -> & -> & _)]; exact Hf.
Qed.

Lemma from_total : progress -> forall k ds fs loc inp ph t, Forall (fresh D same) ds -> inv ph ds fs t -> lastSame D same fs = Some k -> cur ph inp ->
  (length (lastOut D fs) < cap)%nat -> exists r, fwdFrom k fs loc inp = Ok r.
Proof.
  intros Hpr. induction k as [|k IH]; intros [|d ds] [|f fs] loc inp ph t Hfr H Hk Hc Hroom; try (destruct H; fail); cbn [lastSame] in Hk; cbn [IoGroupModel.fwdFrom];
    (inversion Hfr as [|x l Hd Hfr']; subst).
  - destruct (lastSame D same fs) as [k|] eqn:Ek; [discriminate|]. destruct (same (fD f)) eqn:Es; [|discriminate]. apply lastSame_none in Ek.
    assert (Ho : isOut (fD f) = true). { destruct (isOut (fD f)) eqn:Ho; [reflexivity|]. destruct Hok as (_ & _ & _ & _ & K). destruct (K _ Ho). congruence. }
    assert (Ph : exists s, offered ph inp s).
    { cbn [inv] in H. destruct H as [H1 H2]. rewrite <- H1, Ho in H2. destruct H2 as (o & Hf & _). destruct ph as [s|s c|s]; cbn [cur] in Hc.
      - destruct Hf as [_ Hf]. apply ran_idle in Hf; [congruence|exact Hd].
      - destruct Hf as [_ Hf]. apply ran_pend in Hf. subst inp. exists s. cbn. tauto.
      - subst inp. exists s. right. reflexivity. }
    destruct Ph as (s & Hoff). eapply fwd_total; [exact Hpr|exact H|exact Hoff| |exact Hroom]. rewrite Ho. exact Ek.
  - destruct (lastSame D same fs) as [k'|] eqn:Ek; [|destruct (same (fD f)); discriminate]. injection Hk as ->.
    cbn [inv] in H. destruct H as [H1 H2]. rewrite H1. destruct (isOut d) eqn:Ed.
    + destruct H2 as (o & Hf & Hr). destruct ds as [|d1 ds']; [destruct Hr as (-> & _); discriminate|]. destruct Hr as (ph1 & Hl & Hinv).
      pose proof (inv_ne _ _ _ _ Hinv) as Hne. rewrite lastOut_cons in Hroom by exact Hne.
      destruct (IH (d1 :: ds') fs true (fOut f) ph1 t Hfr' Hinv Ek) as ([[r' o1] s1] & ->); [destruct ph1 as [s'|s' c'|s']; cbn; [exact I|destruct Hl; auto..]|exact Hroom|cbn [bind]; eauto].
    + destruct H2 as [Hf Hinv]. pose proof (inv_ne _ _ _ _ Hinv) as Hne. rewrite lastOut_cons in Hroom by exact Hne.
      destruct (IH ds fs loc inp ph t Hfr' Hinv Ek Hc Hroom) as ([[r' o1] s1] & ->). cbn [bind]. eauto.
Qed.

(** Where the caller is with its input [inp] after the stream [s]. *)
Definition busy (ph : phase) (inp : option (list Z)) (s : list Z) : Prop :=
  match inp with Some c => c <> [] /\ (ph = Pend s c \/ ph = Idle (s ++ c)) | None => ph = End s end.
Lemma loop_ok : forall fuel ds fs (sm : bool) inp ph s t fs', Forall (fresh D same) ds -> inv ph ds fs t -> (length (lastOut D fs) < cap)%nat ->
  (if sm then busy ph inp s else offered ph inp s /\ Forall ns fs) ->
  processLoop D isOut inOut procIn same done fuel fs cap sm inp = Ok fs' ->
  exists ph' t', inv ph' ds fs' t' /\ busy ph' inp s.
Proof.
  induction fuel as [|fuel IH]; intros ds fs sm inp ph s t fs' Hfr H Hroom Hs E; cbn [processLoop] in E; [discriminate|].
  destruct (if sm then lastSame D same fs else Some O) as [k|] eqn:Ek.
  2: { injection E as <-. destruct sm; [|discriminate]. eauto. }
  destruct (fwdFrom k fs false inp) as [[[fs1 o1] s1]| |] eqn:Ef; cbn [bind] in E; try discriminate.
  assert (K : exists ph1 t1, inv ph1 ds fs1 t1 /\ busy ph1 inp s).
  { destruct sm.
    - destruct (from_ok k ds fs false inp ph t fs1 o1 s1 Hfr H Ek) as (ph1 & t1 & H1 & Hm); [|exact Hroom|exact Ef|].
      + unfold busy in Hs. destruct inp as [c|]; [destruct Hs as [_ [->| ->]]; [reflexivity|exact I]|subst; reflexivity].
      + exists ph1, t1. split; [exact H1|]. destruct Hm as [[-> _]|(s' & c' & -> & -> & _)]; [exact Hs|]. unfold busy in *. destruct inp as [c|]; [|discriminate]. destruct Hs as [Hc [Hs|Hs]]; [|discriminate]. injection Hs as -> ->. auto.
    - injection Ek as <-. destruct Hs as [Hoff Hq]. cbn [IoGroupModel.fwdFrom] in Ef.
      destruct (fwd_ok ds fs false inp ph s t fs1 o1 s1 H Hoff) as (smf & t1 & H1 & _); [|exact Hroom|exact Ef|].
      + destruct fs; [constructor|]. destruct (isOut _); [inversion Hq; assumption|exact Hq].
      + exists (after inp s smf), t1. split; [exact H1|]. unfold busy, after. destruct inp as [c|]; [|reflexivity]. destruct Hoff as [Hc _]. split; [exact Hc|]. destruct smf; auto. }
  destruct K as (ph1 & t1 & H1 & Hb). destruct ((length (lastOut D fs1) <? cap)%nat && (sm || s1)) eqn:El.
  - apply andb_prop in El as [El _]. apply Nat.ltb_lt in El. exact (IH ds fs1 true inp ph1 s t1 fs' Hfr H1 El Hb E).
  - injection E as <-. eauto.
Qed.
Lemma loop_total : progress -> forall fuel ds fs (sm : bool) inp ph s t, Forall (fresh D same) ds -> inv ph ds fs t -> (length (lastOut D fs) < cap)%nat ->
  (if sm then busy ph inp s else offered ph inp s /\ Forall ns fs) ->
  (exists fs', processLoop D isOut inOut procIn same done fuel fs cap sm inp = Ok fs') \/ processLoop D isOut inOut procIn same done fuel fs cap sm inp = Err EOther.
Proof.
  intros Hpr. induction fuel as [|fuel IH]; intros ds fs sm inp ph s t Hfr H Hroom Hs; cbn [processLoop]; [auto|].
  destruct (if sm then lastSame D same fs else Some O) as [k|] eqn:Ek; [|eauto].
  assert (K : exists r, fwdFrom k fs false inp = Ok r).
  { destruct sm.
    - eapply from_total; [exact Hpr|exact Hfr|exact H|exact Ek| |exact Hroom].
      unfold busy in Hs. destruct inp as [c|]; [destruct Hs as [_ [->| ->]]; [reflexivity|exact I]|subst; reflexivity].
    - injection Ek as <-. destruct Hs as [Hoff Hq]. cbn [IoGroupModel.fwdFrom]. eapply fwd_total; [exact Hpr|exact H|exact Hoff| |exact Hroom].
      destruct fs; [constructor|]. destruct (isOut _); [inversion Hq; assumption|exact Hq]. }
  destruct K as ([[fs1 o1] s1] & Ef). rewrite Ef. cbn [bind]. destruct ((length (lastOut D fs1) <? cap)%nat && (sm || s1)) eqn:El; [|eauto]. apply andb_prop in El as [El _]. apply Nat.ltb_lt in El.
  assert (K : exists ph1 t1, inv ph1 ds fs1 t1 /\ busy ph1 inp s).
  { clear -Hfr H Hroom Hs Ek Ef Hok. destruct sm.
    - destruct (from_ok k ds fs false inp ph t fs1 o1 s1 Hfr H Ek) as (ph1 & t1 & H1 & Hm); [|exact Hroom|exact Ef|].
      + unfold busy in Hs. destruct inp as [c|]; [destruct Hs as [_ [->| ->]]; [reflexivity|exact I]|subst; reflexivity].
      + exists ph1, t1. split; [exact H1|]. destruct Hm as [[-> _]|(s' & c' & -> & -> & _)]; [exact Hs|]. unfold busy in *. destruct inp as [c|]; [|discriminate]. destruct Hs as [Hc [Hs|Hs]]; [|discriminate]. injection Hs as -> ->. auto.
    - injection Ek as <-. destruct Hs as [Hoff Hq]. cbn [IoGroupModel.fwdFrom] in Ef.
      destruct (fwd_ok ds fs false inp ph s t fs1 o1 s1 H Hoff) as (smf & t1 & H1 & _); [|exact Hroom|exact Ef|].
      + destruct fs; [constructor|]. destruct (isOut _); [inversion Hq; assumption|exact Hq].
      + exists (after inp s smf), t1. split; [exact H1|]. unfold busy, after. destruct inp as [c|]; [|reflexivity]. destruct Hoff as [Hc _]. split; [exact Hc|]. destruct smf; auto. }
  destruct K as (ph1 & t1 & H1 & Hb). exact (IH ds fs1 true inp ph1 s t1 Hfr H1 El Hb).
Qed.
Lemma inv_out ph ds fs t : inv ph ds fs t -> exists a, lastOut D fs = w0 ++ a /\ t = t0 ++ a.
Proof.
  revert ph fs. induction ds as [|d ds IH]; intros ph [|f fs] H; try (destruct H; fail). cbn [inv] in H. destruct H as [Ho H]. destruct (isOut d).
  - destruct H as (o & _ & H). destruct ds as [|d1 ds'].
    + destruct H as (-> & -> & _ & a & Ht & Hw). exists a. split; [|exact Ht]. cbn. destruct Hw as [->|(-> & <- & _)]; reflexivity.
    + destruct H as (ph' & _ & H). rewrite lastOut_cons by (eapply inv_ne; exact H). eapply IH; exact H.
  - destruct H as [_ H]. rewrite lastOut_cons by (eapply inv_ne; exact H). eapply IH; exact H.
Qed.
End Inv.

Lemma inv_setLast w0 t0 cap w cap' ph ds fs t : inv w0 t0 cap ph ds fs t -> inv w t cap' ph ds (setLast D fs cap' (Some w)) t.
Proof.
  revert ph fs. induction ds as [|d ds IH]; intros ph [|f fs] H; try (destruct H; fail). cbn [inv] in H. destruct H as [Ho H]. destruct (isOut d) eqn:Ed.
  - destruct H as (o & Hf & H). destruct ds as [|d1 ds'].
    + destruct H as (-> & -> & _). cbn [setLast inv]. rewrite Ed. split; [exact Ho|]. exists t. split; [destruct ph; exact Hf|]. split; [reflexivity|]. split; [reflexivity|].
      split; [reflexivity|]. exists []. rewrite !app_nil_r. split; [reflexivity|]. left. reflexivity.
    + destruct H as (ph' & Hl & H). destruct fs as [|f1 fs]; [destruct H|]. change (setLast D (f :: f1 :: fs) cap' (Some w)) with (f :: setLast D (f1 :: fs) cap' (Some w)).
      cbn [inv]. rewrite Ed. split; [exact Ho|]. exists o. split; [exact Hf|]. exists ph'. split; [exact Hl|]. exact (IH ph' (f1 :: fs) H).
  - destruct H as [Hf H]. destruct fs as [|f1 fs]; [destruct ds; destruct H|]. change (setLast D (f :: f1 :: fs) cap' (Some w)) with (f :: setLast D (f1 :: fs) cap' (Some w)).
    cbn [inv]. rewrite Ed. split; [exact Ho|]. split; [exact Hf|]. exact (IH ph (f1 :: fs) H).
Qed.
Lemma setLast_same fs cap o : Forall ns (setLast D fs cap o) <-> Forall ns fs.
Proof.
  induction fs as [|f fs IH]; [split; constructor|]. destruct fs as [|f1 fs].
  - cbn [setLast]. split; intros H; inversion H; subst; constructor; assumption.
  - change (setLast D (f :: f1 :: fs) cap o) with (f :: setLast D (f1 :: fs) cap o). split; intros H; inversion H; subst; constructor; try assumption; apply IH; assumption.
Qed.
Lemma existsb_same fs : existsb (fun f => same (fD f)) fs = false <-> Forall ns fs.
Proof.
  induction fs as [|f fs IH]; [split; [constructor|reflexivity]|]. cbn [existsb]. destruct (same (fD f)) eqn:E; cbn [orb].
  - split; [discriminate|]. intros H. inversion H; subst. unfold ns in *. congruence.
  - rewrite IH. split; intros H; [constructor; assumption|inversion H; assumption].
Qed.

Lemma setLast_cons f fs cap o : fs <> [] -> setLast D (f :: fs) cap o = f :: setLast D fs cap o.
Proof. destruct fs; [congruence|reflexivity]. Qed.
Lemma setLast_ne fs cap o : setLast D fs cap o <> [] <-> fs <> []. Proof. destruct fs as [|f [|f1 fs]]; cbn; split; congruence. Qed.
Lemma setLast_twice fs cap o cap' o' : setLast D (setLast D fs cap o) cap' o' = setLast D fs cap' o'.
Proof.
  induction fs as [|f [|f1 fs] IH]; [reflexivity|reflexivity|]. rewrite !(setLast_cons f (f1 :: fs)) by discriminate. rewrite setLast_cons by (apply setLast_ne; discriminate). now rewrite IH.
Qed.
Lemma setLast_fD fs cap o : map fD (setLast D fs cap o) = map fD fs.
Proof. induction fs as [|f [|f1 fs] IH]; [reflexivity|reflexivity|]. rewrite !(setLast_cons f (f1 :: fs)) by discriminate. cbn [map]. f_equal. exact IH. Qed.
Lemma setLast_fDone fs cap o : forallb fDone (setLast D fs cap o) = forallb fDone fs.
Proof. induction fs as [|f [|f1 fs] IH]; [reflexivity|reflexivity|]. rewrite !(setLast_cons f (f1 :: fs)) by discriminate. cbn [forallb]. f_equal. exact IH. Qed.
Lemma setLast_out fs cap o : fs <> [] -> lastOut D (setLast D fs cap (Some o)) = o.
Proof.
  induction fs as [|f [|f1 fs] IH]; intros Hne; [congruence|reflexivity|]. rewrite setLast_cons by discriminate. rewrite lastOut_cons; [apply IH; discriminate|]. apply setLast_ne. discriminate.
Qed.

(** The state of a group between calls: [t] has been put out so far. *)
Definition ginv (ph : phase) (ds : list D) (g : group D) (t : list Z) : Prop :=
  (exists w cap, inv w t cap ph ds (setLast D (gFlts D g) cap (Some w)) t) /\ gSame D g = existsb (fun f => same (fD f)) (gFlts D g) /\ (gDone D g = true -> forallb fDone (gFlts D g) = true).
Lemma ginv_pend ds g t s c : ginv (Pend s c) ds g t -> gSame D g = true.
Proof.
  intros ((w & cap & H) & -> & _). destruct (existsb _ _) eqn:E; [reflexivity|]. apply existsb_same in E. exfalso. eapply quiet_not_pend; [exact H|]. apply setLast_same, E.
Qed.
Lemma process_ok fuel ds g inp cap out ph s t g' out' : Forall (fresh D same) ds -> ginv ph ds g t -> (length out < cap)%nat ->
  (if gSame D g then busy ph inp s else offered ph inp s) ->
  ioFilterGroupProcess D isOut inOut procIn same done fuel g inp cap out = Ok (g', out') ->
  exists ph' a, ginv ph' ds g' (t ++ a) /\ out' = out ++ a /\ busy ph' inp s.
Proof.
  intros Hfr ((w0 & cap0 & H) & Hs & Hd) Hl Hb E. unfold ioFilterGroupProcess in E.
  destruct (processLoop _ _ _ _ _ _ fuel (setLast D (gFlts D g) cap (Some out)) cap (gSame D g) inp) as [fs'| |] eqn:El; cbn [bind] in E; try discriminate. injection E as <- <-.
  pose proof (inv_setLast _ _ _ out cap _ _ _ _ H) as H1. rewrite setLast_twice in H1.
  destruct (loop_ok out t cap fuel ds (setLast D (gFlts D g) cap (Some out)) (gSame D g) inp ph s t fs' Hfr H1) as (ph' & t' & H2 & Hb').
  - rewrite setLast_out; [exact Hl|]. apply inv_ne in H. apply setLast_ne in H. exact H.
  - destruct (gSame D g) eqn:Eg; [exact Hb|]. split; [exact Hb|]. apply setLast_same. apply existsb_same. congruence.
  - exact El.
  - destruct (inv_out _ _ _ _ _ _ _ H2) as (a & Ea & ->). exists ph', a. split; [|split; [exact Ea|exact Hb']]. split; [exists [], cap; cbn [gFlts]; eapply inv_setLast; exact H2|]. cbn [gSame gFlts gDone]. split; [reflexivity|].
    intros K. apply andb_prop in K as [_ K]. exact K.
Qed.
Lemma process_total fuel ds g inp cap out ph s t : progress -> Forall (fresh D same) ds -> ginv ph ds g t -> (length out < cap)%nat ->
  (if gSame D g then busy ph inp s else offered ph inp s) ->
  (exists r, ioFilterGroupProcess D isOut inOut procIn same done fuel g inp cap out = Ok r) \/ ioFilterGroupProcess D isOut inOut procIn same done fuel g inp cap out = Err EOther.
Proof.
  intros Hpr Hfr ((w0 & cap0 & H) & Hs & Hd) Hl Hb. unfold ioFilterGroupProcess.
  pose proof (inv_setLast _ _ _ out cap _ _ _ _ H) as H1. rewrite setLast_twice in H1.
  destruct (loop_total out t cap Hpr fuel ds (setLast D (gFlts D g) cap (Some out)) (gSame D g) inp ph s t Hfr H1) as [(fs' & ->)| ->]; cbn [bind]; eauto.
  - rewrite setLast_out; [exact Hl|]. apply inv_ne in H. apply setLast_ne in H. exact H.
  - destruct (gSame D g) eqn:Eg; [exact Hb|]. split; [exact Hb|]. apply setLast_same. apply existsb_same. congruence.
Qed.
Lemma inv_chain w0 t0 cap : forall ds fs ph t, inv w0 t0 cap ph ds fs t -> forallb fDone fs = true ->
  exists s, ph = End s /\ chain D isOut inOut procIn same done ds s (map fD fs) t.
Proof.
  induction ds as [|d ds IH]; intros [|f fs] ph t H Hd; try (destruct H; fail). cbn [inv] in H. destruct H as [Ho H]. cbn [forallb] in Hd. apply andb_prop in Hd as [Hd Hds].
  unfold IoGroupModel.fDone in Hd. destruct (fFlush f) eqn:Hfl; [|discriminate]. cbn [map].
  destruct (isOut d) eqn:Ed.
  - destruct H as (o & Hf & H). destruct ph as [s|s c|s]; [destruct Hf; congruence..|]. exists s. split; [reflexivity|]. apply chain_out with (o := o); [exact Ed|split; [apply Hf|exact Hd]|].
    destruct ds as [|d1 ds']; [destruct H as (-> & -> & _); constructor|]. destruct H as (ph' & Hl & H). destruct (IH fs ph' t H Hds) as (s' & -> & Hc). destruct Hl as (_ & -> & _). exact Hc.
  - destruct H as [Hf H]. destruct (IH fs ph t H Hds) as (s & -> & Hc). exists s. split; [reflexivity|]. apply chain_in; [exact Ed|apply Hf|exact Hc].
Qed.
Lemma ginv_done ph ds g t : ginv ph ds g t -> gDone D g = true -> exists s, ph = End s /\ chain D isOut inOut procIn same done ds s (map fD (gFlts D g)) t.
Proof.
  intros ((w & cap & H) & _ & K) Hd. rewrite <- (setLast_fD _ cap (Some w)). eapply inv_chain; [exact H|]. rewrite setLast_fDone. apply K, Hd.
Qed.
Lemma open_ok size ds : (0 < size)%nat -> Forall (fresh D same) ds -> fresh D same bufferNew -> isOut bufferNew = true ->
  ginv (Idle []) (withBuffer D isOut bufferNew ds) (ioFilterGroupOpen D isOut bufferNew size ds) [] /\ Forall (fresh D same) (withBuffer D isOut bufferNew ds).
Proof.
  intros Hsz Hfr Hb1 Hb2. set (l := withBuffer D isOut bufferNew ds).
  assert (Hl : exists l0 d, l = l0 ++ [d] /\ isOut d = true).
  { unfold l, withBuffer. destruct (rev ds) as [|d r] eqn:Er; [exists ds, bufferNew; auto|]. destruct (isOut d) eqn:Ed; [|exists ds, bufferNew; auto].
    exists (rev r), d. split; [|exact Ed]. rewrite <- (rev_involutive ds), Er. reflexivity. }
  assert (Hf : Forall (fresh D same) l). { unfold l, withBuffer. destruct (match rev ds with d :: _ => isOut d | [] => false end); [exact Hfr|]. apply Forall_app. split; [exact Hfr|]. constructor; [exact Hb1|constructor]. }
  split; [|exact Hf]. unfold ioFilterGroupOpen. fold l. unfold ginv. cbn [gFlts gSame gDone]. split; [|split; [|discriminate]].
  - exists [], size. clear -Hl Hsz. destruct Hl as (l0 & d & -> & Hd). induction l0 as [|d0 l0 IH].
    + cbn [app openList setLast inv]. rewrite Hd. split; [exact Hd|]. exists []. split; [split; [reflexivity|constructor]|]. split; [reflexivity|]. split; [reflexivity|]. split; [reflexivity|].
      exists []. split; [reflexivity|]. left. reflexivity.
    + assert (Hne : exists d1 l1, l0 ++ [d] = d1 :: l1) by (destruct l0; cbn; eauto). destruct Hne as (d1 & l1 & Hne).
      assert (Ho : openList D isOut size (d0 :: l0 ++ [d]) = mkFlt D d0 false size (if isOut d0 then Some [] else None) :: openList D isOut size (l0 ++ [d])) by (rewrite Hne; reflexivity).
      change ((d0 :: l0) ++ [d]) with (d0 :: l0 ++ [d]). rewrite Ho, setLast_cons by (rewrite Hne; destruct l1; discriminate). cbn [inv IoGroupModel.fD]. split; [reflexivity|]. destruct (isOut d0) eqn:E0.
      * exists []. split; [split; [reflexivity|constructor]|]. rewrite Hne in *. exists (Idle []). split; [|exact IH]. exists []. repeat split; auto.
      * split; [split; [reflexivity|constructor]|exact IH].
  - clear -Hf. induction l as [|d l IH]; [reflexivity|]. inversion Hf as [|x y H1 H2]; subst. specialize (IH H2). unfold fresh in H1. destruct l as [|d1 l]; [cbn; rewrite H1; reflexivity|].
    change (openList D isOut size (d :: d1 :: l)) with (mkFlt D d false size (if isOut d then Some [] else None) :: openList D isOut size (d1 :: l)). cbn [existsb IoGroupModel.fD]. rewrite H1. exact IH.
Qed.
End Proof.
