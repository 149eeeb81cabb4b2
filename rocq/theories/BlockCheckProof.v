From Verif Require Import Base Str BlockIncrModel BlockIncrSpec.
Local Open Scope nat_scope.

Section Blocks.
  Variable bs : nat.
  Hypothesis Hbs : 0 < bs.
  Lemma blocks_unique : forall a b data, isBlocks bs data a -> isBlocks bs data b -> a = b.
  Proof.
    assert (Tl : forall x l data, isBlocks bs data (x :: l) -> isBlocks bs (skipn (length x) data) l).
    { intros x l data (E & H). split; [rewrite <- E; cbn; rewrite skipn_app, skipn_all, Nat.sub_diag; reflexivity|]. intros pre c post ->. apply (H (x :: pre) c post). reflexivity. }
    assert (Hd : forall x l data, isBlocks bs data (x :: l) -> x = firstn bs data /\ data <> []).
    { intros x l data (E & H). destruct (H [] x l eq_refl) as (H1 & H2). cbn in E. subst data. split; [|intros Z0; apply (f_equal (@length Z)) in Z0; rewrite app_length in Z0; cbn in Z0; lia].
      destruct l as [|y l]; [cbn; rewrite app_nil_r; symmetry; apply firstn_all2; lia|]. rewrite firstn_app, H2 by discriminate. rewrite Nat.sub_diag, firstn_O, app_nil_r. symmetry. apply firstn_all2. rewrite H2 by discriminate. lia. }
    induction a as [|x a IH]; intros b data A B.
    - destruct b as [|y b]; [reflexivity|]. destruct A as (A & _). cbn in A. apply Hd in B. destruct B as (_ & B). congruence.
    - destruct b as [|y b]; [destruct B as (B & _); cbn in B; apply Hd in A; destruct A as (_ & A); congruence|]. pose proof (Hd _ _ _ A) as (Ex & _). pose proof (Hd _ _ _ B) as (Ey & _). assert (Exy : y = x) by congruence. clear Ex Ey. rewrite Exy in *. clear Exy y. f_equal.
      eapply IH; apply Tl; eassumption.
  Qed.
  Lemma full_blocks bl cur : Forall (fun b : list Z => length b = bs) bl -> length cur < bs -> isBlocks bs (concat bl ++ cur) (if (length cur =? 0)%nat then bl else bl ++ [cur]).
  Proof.
    intros F L. rewrite Forall_forall in F. destruct (Nat.eqb_spec (length cur) 0) as [Q|Q].
    - split; [destruct cur; [now rewrite app_nil_r|discriminate]|]. intros pre b post ->. assert (length b = bs) by (apply F, in_app_iff; right; now left). split; [lia|auto].
    - split; [rewrite concat_app; cbn; now rewrite app_nil_r|]. intros pre b post E. destruct post as [|p post] using rev_ind.
      + apply app_inj_tail in E. destruct E as (_ & <-). split; [lia|congruence].
      + clear IHpost. rewrite app_comm_cons, app_assoc in E. apply app_inj_tail in E. destruct E as (-> & _). assert (length b = bs) by (apply F, in_app_iff; right; now left). split; [lia|auto].
  Qed.
End Blocks.

Section Checksum.
  Variable hash : list Z -> list Z.
  Variable bs : nat.
  Hypothesis Hbs : 0 < bs.
  Definition cinv (data : list Z) (s : bc) : Prop := exists bl cur, concat bl ++ cur = data /\ Forall (fun b => length b = bs) bl /\ length cur < bs /\ cList s = concat (map hash bl) /\
    ((cCur s = None /\ cur = []) \/ (cCur s = Some cur /\ cur <> [] /\ cSize s = length cur)).
  Lemma loop_inv : forall fuel s input data, cinv data s -> length input <= fuel -> cinv (data ++ input) (checksumLoop hash bs fuel s input).
  Proof.
    induction fuel as [|fuel IH]; intros s input data I L; [destruct input; [rewrite app_nil_r; exact I|cbn in L; lia]|]. destruct input as [|x r] eqn:Ei; [cbn; rewrite app_nil_r; exact I|]. rewrite <- Ei in *. cbn [checksumLoop].
    destruct I as (bl & cur & E & F & Lc & El & Hc). set (size := match cCur s with Some _ => cSize s | None => 0 end). set (cu := match cCur s with Some d => d | None => [] end).
    assert (Hcu : cu = cur /\ size = length cur) by (unfold cu, size; destruct Hc as [(-> & ->)|(-> & _ & ->)]; auto). destruct Hcu as (Hcu & Hsz). rewrite Hcu, Hsz. clear Hcu Hsz cu size.
    set (n := if bs - length cur <? length input then bs - length cur else length input). assert (Hn : 1 <= n <= length input /\ length cur + n <= bs) by (unfold n; destruct (Nat.ltb_spec (bs - length cur) (length input)); rewrite Ei in *; cbn [length] in *; lia).
    assert (Ef : length (firstn n input) = n) by (rewrite firstn_length; lia).
    cbv zeta. fold n. assert (Em : forall (T : Type) (a b : T), match input with [] => a | _ => b end = b) by (rewrite Ei; reflexivity). rewrite Em.
    match goal with |- cinv _ (checksumLoop _ _ _ ?s' _) => set (s1 := s') end.
    assert (I1 : cinv (data ++ firstn n input) s1).
    { unfold s1. destruct (Nat.eqb_spec (length cur + n) bs) as [Q|Q].
      - exists (bl ++ [cur ++ firstn n input]), []. split; [rewrite concat_app; cbn; rewrite !app_nil_r, <- E; now rewrite app_assoc|]. split; [apply Forall_app; split; [exact F|]; constructor; [rewrite app_length; lia|constructor]|]. split; [exact Hbs|].
        cbn [cList cCur]. split; [rewrite map_app, concat_app; cbn; rewrite app_nil_r; now rewrite El|]. left. auto.
      - exists bl, (cur ++ firstn n input). split; [rewrite app_assoc; now rewrite E|]. split; [exact F|]. split; [rewrite app_length; lia|]. split; [exact El|]. right. cbn. split; [reflexivity|]. split; [|rewrite app_length; lia].
        intros Z0. apply (f_equal (@length Z)) in Z0. rewrite app_length, Ef in Z0. cbn in Z0. lia. }
    specialize (IH s1 (skipn n input) _ I1 ltac:(rewrite skipn_length; lia)). rewrite <- app_assoc, firstn_skipn in IH. exact IH.
  Qed.
  Lemma run_inv : forall chunks s data, cinv data s -> cinv (data ++ concat chunks) (fold_left (checksumProcess hash bs) chunks s).
  Proof.
    induction chunks as [|c chunks IH]; intros s data I; [cbn; rewrite app_nil_r; exact I|]. cbn [fold_left concat]. rewrite app_assoc. apply IH. apply loop_inv; [exact I|lia].
  Qed.
  Lemma checksum_spec chunks bl : isBlocks bs (concat chunks) bl -> checksumRun hash bs chunks = concat (map hash bl).
  Proof.
    intros B. unfold checksumRun. destruct (run_inv chunks checksumNew []) as (bl' & cur & E & F & L & El & Hc); [exists [], []; repeat split; auto|]. cbn [app] in E. pose proof (full_blocks bs Hbs bl' cur F L) as B'. rewrite E in B'.
    pose proof (blocks_unique bs Hbs _ _ _ B B') as ->. unfold checksumResult. destruct Hc as [(-> & ->)|(-> & Ne & _)]; [cbn; exact El|]. destruct cur as [|x cur]; [congruence|]. cbn [length Nat.eqb]. rewrite map_app, concat_app. cbn [map concat]. rewrite app_nil_r. now rewrite El.
  Qed.
End Checksum.

Lemma blocks_exist bs (Hbs : 0 < bs) data : exists bl, isBlocks bs data bl.
Proof.
  destruct (run_inv (fun x => x) bs Hbs [data] checksumNew []) as (bl & cur & E & F & L & _); [exists [], []; repeat split; auto|]. cbn in E. rewrite app_nil_r in E. eexists. rewrite <- E. apply full_blocks; assumption.
Qed.

Lemma size_spec chunks : sizeRun chunks = Z.of_nat (length (concat chunks)).
Proof.
  unfold sizeRun. assert (G : forall n, fold_left (fun (m : Z) (c : list Z) => (m + Z.of_nat (length c))%Z) chunks n = (n + Z.of_nat (length (concat chunks)))%Z).
  { induction chunks as [|c chunks IH]; intros n; cbn [fold_left concat]; [cbn; lia|]. rewrite IH, app_length. lia. } apply G.
Qed.
