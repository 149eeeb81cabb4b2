(** Sequences of calls *)
From Coq Require Import Lia Sorting.Permutation Sorting.Sorted.
From Verif Require Import Base Str ListModel ListSpec ListProof.
Open Scope Z_scope.
Open Scope list_scope.

Section Runs.
Context {A : Type}.
Variable qs : (A -> A -> Z) -> list A -> list A.
Hypothesis HQ : sorts qs.
Variable m : nat.
Hypothesis Hm : Z.of_nat m < 2 ^ 31.

(** What relates a list and a sequence during a run *)
Definition related (l : lst A) (s : aseq A) : Prop :=
  holds l (aItems s) /\ liCmp l = aCmp s /\ isOrder (aCmp s) /\ (aFront s = false -> liOff l = 0%nat) /\ (length (liCells l) <= Nat.max 8 (2 * m))%nat.

Lemma without_last (xs : list A) y : without (xs ++ [y]) (length xs) = xs.
Proof. unfold without. rewrite firstn_at. replace (S (length xs)) with (length xs + 1)%nat by lia. rewrite skipn_at2. cbn. apply app_nil_r. Qed.
Lemma withAt_end (xs : list A) x : withAt xs (length xs) x = xs ++ [x].
Proof. unfold withAt. rewrite firstn_all, skipn_all. reflexivity. Qed.

Lemma insert_step l s i x : related l s -> (i <= length (aItems s))%nat -> (length (aItems s) <= m)%nat ->
  exists l', lstInsert l i x = Ok l' /\ related l' (mkA (withAt (aItems s) i x) (aCmp s) (aFront s)).
Proof.
  intros (H & Hc & HO & Hf & Hl) Hi Hb. destruct (insert_holds l _ i x H Hi) as (l' & E & H' & Hc' & Ho & Hcl & _).
  { change (2 ^ 32) with 4294967296. change (2 ^ 31) with 2147483648 in Hm. lia. }
  exists l'. split; [exact E|]. split; [exact H'|]. cbn [aItems aCmp aFront]. split; [congruence|]. split; [exact HO|]. split.
  - intros F. specialize (Hf F). destruct Ho as [Ho|Ho]; congruence.
  - destruct Hcl as [->|[_ ->]]; [exact Hl|]. unfold grown. destruct (Nat.eqb_spec (length (aItems s)) 0); lia.
Qed.
Lemma remove_step l s i : related l s -> (i < length (aItems s))%nat ->
  exists l', lstRemoveIdx l i = Ok l' /\ related l' (mkA (without (aItems s) i) (aCmp s) (front i (aFront s))).
Proof.
  intros (H & Hc & HO & Hf & Hl) Hi. destruct (removeIdx_holds l _ i H Hi) as (l' & E & H' & Hc' & Ho & Hcl & _).
  exists l'. split; [exact E|]. split; [exact H'|]. cbn [aItems aCmp aFront]. split; [congruence|]. split; [exact HO|]. split.
  - unfold front. rewrite Ho. destruct (Nat.eqb_spec i 0); [discriminate|exact Hf].
  - rewrite Hcl. exact Hl.
Qed.
Lemma clear_step (l : lst A) xs : holds l xs -> liOff l = 0%nat -> lstClear l = Ok (mkLst [] 0 0 (liOrder l) (liCmp l)).
Proof.
  intros ((pre & post & Hc & Hp) & Hn & _) Ho. unfold lstClear. destruct (liCells l) eqn:Ec; [|rewrite Ho; reflexivity].
  destruct pre; [|discriminate]. destruct xs; [|discriminate]. destruct l as [cells off n o cmp]. cbn in *. subst. reflexivity.
Qed.

Lemma step_ok l s op : related l s -> fits s op -> (length (aItems s) <= m)%nat -> exists l' s', lstDo qs l op = Ok l' /\ related l' s' /\ astep s op s'.
Proof.
  intros R F Hb. pose proof R as (H & Hc & HO & Hf & Hl). destruct s as [xs c f]. cbn [aItems aCmp aFront] in *. destruct op as [i x|x|i|x| |o|c'| ]; cbn [lstDo fits aItems aFront] in *.
  - destruct (insert_step l _ i x R F Hb) as (l' & E & R'). exists l'. eexists. split; [exact E|]. split; [exact R'|]. constructor. exact F.
  - unfold lstAdd. pose proof H as (_ & Hn & _). rewrite Hn. destruct (insert_step l _ (length xs) x R (le_n _) Hb) as (l' & E & R').
    exists l'. eexists. split; [exact E|]. split; [exact R'|]. cbn. rewrite withAt_end. constructor.
  - destruct (remove_step l _ i R F) as (l' & E & R'). exists l'. eexists. split; [exact E|]. split; [exact R'|]. constructor. exact F.
  - unfold lstRemove. destruct (find_holds l xs x H) as (r & -> & Hr); [rewrite Hc; exact HO|]. cbn [bind]. destruct r as [i|].
    + destruct Hr as (y & Hy & Hz & _). rewrite Hc in Hz. destruct (remove_step l _ i R) as (l' & E & R'); [cbn; apply nth_error_Some; congruence|].
      rewrite E. cbn [bind snd]. exists l'. eexists. split; [reflexivity|]. split; [exact R'|]. cbn. econstructor; eassumption.
    + cbn in Hr. rewrite Hc in Hr. exists l, (mkA xs c f). split; [reflexivity|]. split; [exact R|]. constructor. exact Hr.
  - destruct (exists_last F) as (ys & y & ->). unfold lstRemoveLast. pose proof H as (_ & Hn & _). rewrite app_length in Hn. cbn [length] in Hn.
    rewrite Hn. replace (length ys + 1 =? 0)%nat with false by (symmetry; apply Nat.eqb_neq; lia). replace (length ys + 1 - 1)%nat with (length ys) by lia.
    destruct (remove_step l _ (length ys) R) as (l' & E & R'); [cbn; rewrite app_length; cbn; lia|]. cbn [aItems aCmp aFront] in R'. rewrite without_last in R'.
    exists l'. eexists. split; [exact E|]. split; [exact R'|]. constructor.
  - destruct (sort_holds qs l xs o HQ H) as (l' & ys & E & H' & P & S & Hc' & Ho & Hcl & _); [rewrite Hc; exact HO|].
    exists l', (mkA ys c f). split; [exact E|]. split; [|constructor; [exact P|rewrite <- Hc; exact S]].
    split; [exact H'|]. cbn [aItems aCmp aFront]. split; [congruence|]. split; [exact HO|]. rewrite Ho, Hcl. split; assumption.
  - exists (lstComparatorSet l c'), (mkA xs c' f). split; [reflexivity|]. split; [|constructor].
    split; [|split; [reflexivity|split; [exact F|split; [exact Hf|exact Hl]]]].
    destruct H as (H1 & H2 & H3). split; [exact H1|]. split; [exact H2|]. intros _. exact I.
  - subst f. rewrite (clear_step l xs H (Hf eq_refl)). eexists _, (mkA [] c false). split; [reflexivity|]. split; [|constructor].
    split; [split; [exists [], []; split; reflexivity|split; [reflexivity|intros _; cbn; destruct (liOrder l); constructor]]|].
    cbn. split; [exact Hc|]. split; [exact HO|]. split; [reflexivity|]. lia.
Qed.
Lemma run_ok ops : forall l s, related l s -> careful m s ops -> exists l' s', lstRun qs l ops = Ok l' /\ related l' s' /\ arun s ops s'.
Proof.
  induction ops as [|op r IH]; intros l s R C; cbn [lstRun].
  - exists l, s. split; [reflexivity|]. split; [exact R|constructor].
  - destruct C as [Hb [F K]]. destruct (step_ok l s op R F Hb) as (l1 & s1 & -> & R1 & S1). cbn [bind].
    destruct (IH l1 s1 R1 (K s1 S1)) as (l2 & s2 & E & R2 & S2). exists l2, s2. split; [exact E|]. split; [exact R2|]. econstructor; eassumption.
Qed.
End Runs.

Lemma cmpZ_order : isOrder cmpZ.
Proof.
  unfold cmpZ. split; intros; repeat match goal with |- context [?x <? ?y] => destruct (Z.ltb_spec x y) | H : context [?x <? ?y] |- _ => destruct (Z.ltb_spec x y) end; lia.
Qed.

Lemma cmpStr_order : isOrder cmpStr.
Proof.
  split.
  - intros a b. unfold cmpStr. rewrite (strCmp_antisym a b). destruct (strCmp a b); cbn; lia.
  - intros a b c H1 H2. assert (L : sle a c).
    { apply (sle_trans a b c); unfold sle; intros E; unfold cmpStr in *; rewrite E in *; lia. }
    unfold sle in L. unfold cmpStr. destruct (strCmp a c); [lia|lia|congruence].
Qed.

(** There is a sort *)
Section Sort.
Context {A : Type}.
Fixpoint ins (cmp : A -> A -> Z) (x : A) (l : list A) : list A :=
  match l with [] => [x] | y :: r => if cmp x y <=? 0 then x :: l else y :: ins cmp x r end.
Fixpoint lsort (cmp : A -> A -> Z) (l : list A) : list A := match l with [] => [] | x :: r => ins cmp x (lsort cmp r) end.
Lemma ins_perm cmp x l : Permutation (ins cmp x l) (x :: l).
Proof.
  induction l as [|y l IH]; cbn [ins]; [reflexivity|]. destruct (cmp x y <=? 0); [reflexivity|]. rewrite IH. apply perm_swap.
Qed.
Lemma lsort_sorts : sorts lsort.
Proof.
  split.
  - intros cmp l. induction l as [|x l IH]; cbn [lsort]; [constructor|]. rewrite ins_perm. constructor. exact IH.
  - intros cmp l T C. induction l as [|x l IH]; cbn [lsort]; [constructor|]. induction IH as [|y r H1 IH2 H2]; cbn [ins]; [repeat constructor|].
    destruct (Z.leb_spec (cmp x y) 0) as [L|L].
    + constructor; [constructor; assumption|]. constructor; [exact L|]. rewrite Forall_forall in *. intros z Hz. apply (T x y z L). apply H2. exact Hz.
    + constructor; [exact IH2|]. rewrite Forall_forall in *. intros z Hz. apply (Permutation_in _ (ins_perm cmp x r)) in Hz. destruct Hz as [<-|Hz].
      * destruct (C x y); [lia|assumption].
      * apply H2. exact Hz.
Qed.
End Sort.
