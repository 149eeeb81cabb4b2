(** The whole build. *)
From Coq Require Import String Sorting.Permutation Sorting.Sorted.
From Verif Require Import Base Str NumModel ManifestPackModel ManifestModel RegModel RegSpec RegNameModel LinkCheckModel SpoolModel SpoolProof SelectSpec SelectProof UnloggedModel UnloggedSpec UnloggedProof
  BuildModel BuildSpec BuildProof BuildProof2 BuildProof3.
Open Scope Z_scope.
Open Scope list_scope.

Definition rootPath (i : binfo) : mpath := mkMpath sData (biMode i) (biUser i) (biGroup i).
Definition rootTarget (pg : str) : mtarget := mkMtarget sData true pg None 0 None.
Definition start (pg : str) (root : binfo) : bman := mkBman [] [rootPath root] [] [rootTarget pg] [].
Definition sorted (m : bman) : bman :=
  mkBman (sortBy bfName strLeb (bmFiles m)) (sortBy mpName strLeb (bmPaths m)) (sortBy mlName strLeb (bmLinks m)) (sortBy mtName strLeb (bmTargets m)) (bmCheck m).
Lemma start_inv pg root : Inv (rootPath root) (rootTarget pg) (start pg root).
Proof. split; [now exists []|]. split; [intros p [<- | []] F; discriminate F | now exists []]. Qed.
Lemma start_has pg root : hasPath (start pg root) sData.
Proof. exists (rootPath root). split; [now left | reflexivity]. Qed.
Lemma build_is depth w o pg root : forallb patChar (boTid o) = true -> exists dbExp tempExp,
  (forall s, regExpMatch dbExp s = true <-> isDbPath (boTid o) s) /\ (forall s, regExpMatch tempExp s = true <-> tempRelation s) /\
  regExpNew (dbPathExp (boTid o)) = Ok dbExp /\ regExpNew tempRelationExp = Ok tempExp /\
  manifestBuild depth w o pg root = (let* m := buildList (buildInfo w o dbExp tempExp depth sData pg false) (bwList w pg) (start pg root) in Ok (sorted m)).
Proof.
  intros HT. destruct (db_new _ HT) as (d & Ed & Hd), temp_new as (t & Et & Ht). exists d, t. split; [exact Hd|]. split; [exact Ht|]. split; [exact Ed|]. split; [exact Et|].
  unfold manifestBuild. rewrite Ed, Et. cbn [bind]. reflexivity.
Qed.
Lemma build_ok depth w o pg root m : forallb patChar (boTid o) = true -> manifestBuild depth w o pg root = Ok m ->
  exists m1, m = sorted m1 /\ grown w o (rootPath root) (rootTarget pg) (start pg root) m1 (reach w o pg).
Proof.
  intros HT. destruct (build_is depth w o pg root HT) as (d & t & Hd & Ht & _ & _ & ->).
  destruct (buildList _ _ _) as [m1 | e |] eqn:E; cbn [bind]; try discriminate. intros F. injection F as <-. exists m1. split; [reflexivity|].
  exact (list_ok w o _ _ _ (mkNode sData pg false) sData (fun i a b I P => info_ok w o d t (rootPath root) (rootTarget pg) Hd Ht eq_refl eq_refl depth (mkNode sData pg false i) a b I P)
    _ _ _ (start_inv pg root) (start_has pg root) E).
Qed.
Lemma build_err depth w o pg root e : forallb patChar (boTid o) = true -> manifestBuild depth w o pg root = Err e -> exists n, reach w o pg n /\ Bad w o n e.
Proof.
  intros HT. destruct (build_is depth w o pg root HT) as (d & t & Hd & Ht & _ & _ & ->).
  destruct (buildList _ _ _) as [m1 | e1 |] eqn:E; cbn [bind]; try discriminate. intros F. injection F as ->.
  destruct (list_err w o _ _ _ (mkNode sData pg false) sData (Bad w o) (fun i a b I P => info_ok w o d t (rootPath root) (rootTarget pg) Hd Ht eq_refl eq_refl depth (mkNode sData pg false i) a b I P)
    (fun i a b I P => info_err w o d t (rootPath root) (rootTarget pg) Hd Ht eq_refl eq_refl depth (mkNode sData pg false i) a b I P)
    _ _ _ (start_inv pg root) (start_has pg root) E) as (i & x & Hi & HB & HX). exists x. split; [exists i; auto | exact HX].
Qed.
Lemma build_deeper d d' w o pg root : (d <= d')%nat -> agree (manifestBuild d w o pg root) (manifestBuild d' w o pg root).
Proof.
  intros H. unfold manifestBuild. apply agree_bind. intros dbExp _. apply agree_bind. intros tempExp _. cbv zeta.
  match goal with |- agree (bind (buildList ?f ?l ?m) _) (bind (buildList ?g _ _) _) => pose proof (list_agree f g (fun i z => depths w o dbExp tempExp d d' _ _ _ i z H) l m) as K end.
  intros N. rewrite K; [reflexivity|]. intros F. rewrite F in N. now elim N.
Qed.
Lemma build_fresh depth w o pg root m : worldWf w -> forallb patChar (boTid o) = true -> manifestBuild depth w o pg root = Ok m ->
  NoDup (map bfName (bmFiles m)) /\ NoDup (map mlName (bmLinks m)) /\ NoDup (map mtName (bmTargets m)).
Proof.
  intros HW HT. destruct (build_is depth w o pg root HT) as (d & t & Hd & Ht & _ & _ & ->).
  destruct (buildList _ _ _) as [m1 | e |] eqn:E; cbn [bind]; try discriminate. intros F. injection F as <-. destruct (proj1 HW pg) as [ND NS].
  assert (HR : rooted sData) by now left.
  destruct (list_fresh w o (rootPath root) (rootTarget pg) _ (mkNode sData pg false) sData (fun i => eq_refl) HR
    (fun i a b I P => info_ok w o d t (rootPath root) (rootTarget pg) Hd Ht eq_refl eq_refl depth (mkNode sData pg false i) a b I P)
    (fun i a b I P X => all_ext _ _ _ _ _ _ (fun s H => H) (fun s H => proj1 H) (info_fresh w o d t (rootPath root) (rootTarget pg) HW Hd Ht eq_refl eq_refl depth (mkNode sData pg false i) a b HR I P X))
    _ _ _ ND NS (start_inv pg root) (start_has pg root) E) as ((x & E1 & N1 & _) & (y & E2 & N2 & _) & (z & E3 & N3 & H3)).
  assert (PM : forall (A : Type) (key : A -> str) l, NoDup (map key l) -> NoDup (map key (sortBy key strLeb l))).
  { intros A key l H. eapply Permutation_NoDup; [apply Permutation_map, Permutation_sym, sortBy_perm | exact H]. }
  assert (RM : forall (A : Type) (key : A -> str) l, NoDup (map (fun a => real (key a)) l) -> NoDup (map key l)).
  { intros A key l H. apply (NoDup_map_inv real). rewrite map_map. exact H. }
  cbn [start bmFiles bmLinks bmTargets app] in E1, E2, E3. cbn [sorted bmFiles bmLinks bmTargets]. rewrite E1, E2, E3. split; [apply PM, RM, N1|]. split; [apply PM, RM, N2|]. apply PM, RM.
  cbn [map]. constructor; [| exact N3]. intros F. apply in_map_iff in F. destruct F as (a & EA & HA). destruct (H3 a HA) as (i & _ & Z). unfold nTarget in Z. rewrite EA in Z. cbn [rootTarget mtName] in Z.
  revert Z. unfold zone, nName. cbn [nParent nInfo]. rewrite (real_slash _ _ HR). change (real sData) with sData. intros Z. apply (strictly_ne sData). exact (strictly_within _ _ _ (slash_more _ _) Z).
Qed.
Lemma sortBy_names {A} (key : A -> str) l : StronglySorted sle (map key (sortBy key strLeb l)).
Proof.
  pose proof (sortBy_sorted key strLeb strLeb_total strLeb_trans l) as H. induction H as [| a r HS IH HF]; cbn [map]; constructor; [exact IH|].
  rewrite Forall_forall in HF |- *. intros s Hs. apply in_map_iff in Hs. destruct Hs as (b & <- & Hb). apply strLeb_le. exact (HF b Hb).
Qed.
Lemma sle_nodup l : StronglySorted sle l -> NoDup l -> StronglySorted slt l.
Proof.
  intros H. induction H as [| a r HS IH HF]; intros N; constructor; inversion N as [| ? ? N1 N2]; subst; [exact (IH N2)|]. rewrite Forall_forall in HF |- *. intros b Hb.
  specialize (HF b Hb). unfold sle, slt in *. destruct (strCmp a b) eqn:E; [| reflexivity | now elim HF]. elim N1. apply strCmp_eq in E. now subst.
Qed.
