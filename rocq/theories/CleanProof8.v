From Verif Require Import Base Str ManifestPackModel ManifestModel LinkCheckModel LinkCheckProof2 CleanModel CleanSpec CleanProof CleanProof2 CleanProof3 CleanProof4 CleanProof5 CleanProof6 CleanProof7.
Open Scope Z_scope.

Definition linksFrom (f0 f : fs) : Prop := forall q e, get f q = Some e -> isLink e = true -> exists d, get f0 q = Some d /\ isLink d = true.
Lemma isLink_kind e e' : eKind e = eKind e' -> isLink e = isLink e'.
Proof. unfold isLink. now intros ->. Qed.
Lemma lf_sub f0 f g : linksFrom f0 f -> sub g f -> linksFrom f0 g.
Proof. intros H S q e G L. destruct (S _ _ G) as (d & Gd & Sd). apply (H q d Gd). now rewrite (isLink_kind _ _ Sd). Qed.
Lemma lf_put f0 f p e : linksFrom f0 f -> eKind e = KPath -> linksFrom f0 (put f p e).
Proof. intros H K q x. rewrite get_put. destruct (pathEqb p q); [|apply H]. intros [= <-]. unfold isLink. now rewrite K. Qed.

(** A path without links and dots is where it says *)
Lemma resolve_plain f fl n : forall (t : list str) (d r : path), Forall (fun c : str => c <> [] /\ c <> [46] /\ c <> [46;46]) t ->
  (forall (a b : list str) e, t = a ++ b -> a <> [] -> get f (d ++ a) = Some e -> isLink e = false) -> resolve n f fl d t = Ok r -> r = d ++ t.
Proof.
  induction t as [|c t IH]; intros d r F N; [rewrite resolve_nil, app_nil_r; congruence|]. rewrite resolve_unfold. inversion F as [|? ? (F1 & F2 & F3) Ft]; subst.
  destruct (strEqb_spec c []); [contradiction|]. destruct (strEqb_spec c [46]); [contradiction|]. cbn [orb]. destruct (strEqb_spec c [46;46]); [contradiction|].
  destruct (get f (d ++ [c])) as [e|] eqn:G.
  - pose proof (N [c] t e eq_refl ltac:(discriminate) G) as L. unfold isLink in L. destruct (eKind e).
    + destruct t; [intros [= <-]; reflexivity|discriminate].
    + intros H. apply IH in H; [rewrite H, <- app_assoc; reflexivity|exact Ft|]. intros a b x -> Na Gx. apply (N (c :: a) b x); [reflexivity|discriminate|].
      now rewrite <- app_assoc in Gx.
    + discriminate.
    + destruct t; [intros [= <-]; reflexivity|discriminate].
  - destruct t; [intros [= <-]; reflexivity|discriminate].
Qed.
Lemma resolve_plain_missing f fl n : forall (t : list str) (d : path), Forall (fun c : str => c <> [] /\ c <> [46] /\ c <> [46;46]) t ->
  (forall (a b : list str) e, t = a ++ b -> a <> [] -> get f (d ++ a) = Some e -> isLink e = false) -> resolve n f fl d t = Err EFileMissing ->
  exists a b, t = a ++ b /\ a <> [] /\ get f (d ++ a) = None.
Proof.
  induction t as [|c t IH]; intros d F N; [rewrite resolve_nil; congruence|]. rewrite resolve_unfold. inversion F as [|? ? (F1 & F2 & F3) Ft]; subst.
  destruct (strEqb_spec c []); [contradiction|]. destruct (strEqb_spec c [46]); [contradiction|]. cbn [orb]. destruct (strEqb_spec c [46;46]); [contradiction|].
  destruct (get f (d ++ [c])) as [e|] eqn:G.
  - pose proof (N [c] t e eq_refl ltac:(discriminate) G) as L. unfold isLink in L. destruct (eKind e).
    + destruct t; discriminate.
    + intros H. apply IH in H; [|exact Ft|].
      * destruct H as (a & b & -> & Na & Ga). exists (c :: a), b. split; [reflexivity|]. split; [discriminate|]. now rewrite <- app_assoc in Ga.
      * intros a b x -> Na Gx. apply (N (c :: a) b x); [reflexivity|discriminate|]. now rewrite <- app_assoc in Gx.
    + discriminate.
    + destruct t; discriminate.
  - intros _. exists [c], t. split; [reflexivity|]. split; [discriminate|exact G].
Qed.
Lemma plain_nolink f0 f p cs : plainAt f0 p cs -> linksFrom f0 f -> forall a b e, cs = a ++ b -> a <> [] -> get f ([] ++ a) = Some e -> isLink e = false.
Proof.
  intros (_ & _ & N) L a b e E _ G. destruct (isLink e) eqn:X; [|reflexivity]. destruct (L _ _ G X) as (d & Gd & Ld). rewrite <- Ld. eapply N; eassumption.
Qed.
Lemma real_plain maxLinks f0 f p cs fl r : plainAt f0 p cs -> linksFrom f0 f -> real maxLinks f fl p = Ok r -> r = cs.
Proof.
  intros P L. pose proof (plain_nolink _ _ _ _ P L) as N. destruct P as (Sp & F & _). unfold real. rewrite Sp, resolve_unfold. cbn [strEqb orb]. 
  intros H. apply resolve_plain in H; auto.
Qed.

Lemma h_and {A} (k : M A) P P' Q Q' E E' : hoare P k Q E -> hoare P' k Q' E' -> hoare (fun f => P f /\ P' f) k (fun a f => Q a f /\ Q' a f) (fun f => E f /\ E' f).
Proof. intros H1 H2 s s1 o [X Y] H. specialize (H1 s s1 o X H). specialize (H2 s s1 o Y H). destruct o; auto. Qed.

Section Sys.
Variables (maxLinks : nat) (fail : nat -> bool) (part : nat -> path -> bool) (ev : env) (ru rg : option str).
Let run := run maxLinks fail part ev ru rg.
Let after := after maxLinks fail part ev ru rg.
Let step1 := step1One maxLinks fail part ev ru rg.

Section Outside.
Variables (f0 : fs) (m : cman) (o : copts) (pg : str).
Hypothesis W0 : wf f0.
Hypothesis PL : forall t p, In t (cmTargets m) -> targetPathOf m o t = Ok p -> exists cs, plainAt f0 p cs.
Definition prot2 (q : path) : Prop := ~ inTarget m o q /\ real maxLinks f0 false (controlPath pg) <> Ok q.
Definition prot (q : path) : Prop := prot2 q /\ ~ isTarget m o q.
Definition outE (f : fs) : Prop :=
  (forall q e, prot q -> get f0 q = Some e -> get f q = Some e) /\
  (forall q e, prot2 q -> get f0 q = Some e -> exists e', get f q = Some e' /\ same e e').
Definition outI (f : fs) : Prop := wf f /\ outE f.
Definition outI2 (f : fs) : Prop := outI f /\ linksFrom f0 f.
Notation I := outI.
Notation I2 := outI2.
Definition free (p : path) : Prop := ~ prot p \/ get f0 p = None.

Lemma out_start : I2 f0.
Proof.
  split; [split; [exact W0|]; split; [auto|]; intros q e _ G; exists e; split; [exact G|reflexivity]|]. intros q e G L. exists e. auto.
Qed.
Lemma out_put f p c e : I f -> isDir f p -> get f (p ++ [c]) = None -> I (put f (p ++ [c]) e).
Proof.
  intros (W & A & B) D G. split; [now apply wf_put|]. split.
  - intros q x P Q. specialize (A q x P Q). rewrite get_put. destruct (pathEqb_spec (p ++ [c]) q) as [<-|]; [congruence|exact A].
  - intros q x P Q. destruct (B q x P Q) as (x' & Gx & Sx). exists x'. split; [|exact Sx]. rewrite get_put. destruct (pathEqb_spec (p ++ [c]) q) as [<-|]; [congruence|exact Gx].
Qed.
Lemma out_attr f p g : I f -> free p -> (forall e, eKind (g e) = eKind e) -> I (attr p g f).
Proof.
  intros (W & A & B) F K. split; [now apply wf_attr|]. split.
  - intros q x P Q. specialize (A q x P Q). rewrite get_attr. destruct (pathEqb_spec p q) as [->|]; [|exact A]. destruct F as [F|F]; [contradiction|congruence].
  - intros q x P Q. destruct (B q x P Q) as (x' & Gx & Sx). destruct (ext_attr f p g K _ _ Gx) as (y & Gy & Sy). exists y. split; [exact Gy|]. unfold same in *. congruence.
Qed.
Lemma out_new f p : I f -> get f p = None -> free p.
Proof.
  intros (_ & A & _) G. unfold free. destruct (get f0 p) as [e|] eqn:E; [|now right]. left. intros P. rewrite (A p e P E) in G. discriminate.
Qed.
Lemma out2_put f p c e : I2 f -> isDir f p -> get f (p ++ [c]) = None -> eKind e = KPath -> I2 (put f (p ++ [c]) e).
Proof. intros [A L] D G K. split; [now apply out_put|now apply lf_put]. Qed.
Lemma out2_attr f p g : I2 f -> free p -> (forall e, eKind (g e) = eKind e) -> I2 (attr p g f).
Proof. intros [A L] F K. split; [now apply out_attr|]. eapply lf_sub; [exact L|now apply sub_attr]. Qed.
Lemma out2_E f : I2 f -> outE f.
Proof. now intros ((_ & H) & _). Qed.
Lemma out2_wf f : I2 f -> wf f.
Proof. now intros ((H & _) & _). Qed.

Lemma out_control : hoare (fun f => f = f0) (removeControl maxLinks fail pg) (fun _ => I2) outE.
Proof.
  intros s s' x E0 H. pose proof (control_wf maxLinks fail part ev ru rg pg s s' x) as CW. rewrite E0 in CW. specialize (CW W0 H).
  unfold removeControl in H. fold (controlPath pg) in H. unfold mbind at 1 in H. unfold reads at 1 in H. rewrite E0 in H.
  pose proof out_start as O0.
  destruct (storageExists maxLinks f0 (controlPath pg)) as [[|]|y|].
  - unfold mbind at 1 in H. unfold reads at 1 in H. rewrite E0 in H. destruct (real maxLinks f0 false (controlPath pg)) as [c|y|] eqn:R.
    + assert (OE : outE (del f0 (pathEqb c)) /\ linksFrom f0 (del f0 (pathEqb c))).
      { split; [split|].
        - intros q e ((_ & P) & _) G. rewrite get_del. destruct (pathEqb_spec c q) as [->|]; [congruence|exact G].
        - intros q e (_ & P) G. exists e. split; [|reflexivity]. rewrite get_del. destruct (pathEqb_spec c q) as [->|]; [congruence|exact G].
        - eapply lf_sub; [apply O0|apply sub_del]. }
      unfold mbind, unlinkAt, call in H. destruct (fail (cN s)).
      * injection H as <- <-. cbn [cFs]. rewrite E0. now apply out2_E.
      * cbn [cFs cN] in H. rewrite E0 in H. destruct (fail (S (cN s))); injection H as <- <-; cbn [cFs] in *; [apply OE|]. split; [split; [exact CW|apply OE]|apply OE].
    + injection H as <- <-. rewrite E0. now apply out2_E.
    + injection H as <- <-. rewrite E0. now apply out2_E.
  - injection H as <- <-. rewrite E0. exact O0.
  - injection H as <- <-. rewrite E0. now apply out2_E.
  - injection H as <- <-. rewrite E0. now apply out2_E.
Qed.
Lemma out_step2 fuel m' t d : In t (cmTargets m) -> step1 f0 m o t = Ok d -> hoare I2 (step2One maxLinks fail part ev ru rg fuel m' o d) (fun _ => I2) outE.
Proof.
  intros Ht S1. apply step1_cases in S1 as (T & _ & TP & _). destruct (PL t _ Ht TP) as (cs & P).
  assert (Hfree : free cs). { left. intros [_ H]. apply H. exists t, (cdPath d). split; [exact Ht|]. split; [exact TP|]. now destruct P. }
  unfold step2One. destruct (cdExists d).
  - rewrite T. destruct (mtFile t) eqn:MF; [apply h_ret; auto|].
    eapply h_bind; [apply h_find, out2_E|]. intros mp. eapply h_bind; [apply h_reads; intros f [A _]; now apply out2_E|]. intros [[r e]|]; [|apply h_throw; intros f [[A _] _]; now apply out2_E].
    intros s s' x ((Hi & _) & Ei).
    assert (r = cs /\ (eKind e = KPath -> isDir (cFs s) cs)) as [-> D].
    { assert (r = cs). { unfold info in Ei. destruct (real maxLinks (cFs s) true (cdPath d)) as [q|y|] eqn:R; [|destruct y; discriminate|discriminate].
        apply (real_plain maxLinks f0 _ _ cs) in R; [|exact P|apply Hi]. subst q. destruct cs; [now injection Ei as <- _|]. destruct (get _ _); [now injection Ei as <- _|discriminate]. }
      subst r. split; [reflexivity|]. eapply info_dir. exact Ei. }
    set (I3 := fun f => I2 f /\ (eKind e = KPath -> isDir f cs)).
    assert (AT : forall f p g, I3 f -> free p -> (forall e, eKind (g e) = eKind e) -> I3 (attr p g f)).
    { intros f p g [A Df] F K. split; [now apply out2_attr|]. intros Ke. destruct (Df Ke) as [->|(y & Gy & Ky)]; [now left|]. right.
      destruct (ext_attr f p g K _ _ Gy) as (y' & Gy' & Sy). exists y'. split; [exact Gy'|]. unfold same in Sy. congruence. }
    assert (I3E : forall f, I3 f -> outE f) by (intros f [A _]; now apply out2_E).
    assert (HB : hoare I3 (mbind (reads (fun f => real maxLinks f false (cdPath d))) (fun l =>
            mbind (cleanOwnership fail ev ru rg l (mpUser mp) (mpGroup mp) (eUser e) (eGroup e)) (fun _ =>
            mbind (cleanMode fail cs (mpMode mp) e) (fun _ =>
            match eKind e with
            | KPath => cleanDir fail part ev ru rg fuel m' (ignoreList o) true (cdName d) cs (cdBase d)
            | _ => throw EFileOpen
            end)))) (fun _ => I2) outE).
    { eapply h_bind; [apply h_reads, I3E|]. intros l. eapply h_bind with (Q := fun _ => I3).
      - intros t1 t2 y [A R]. assert (l = cs) as -> by (eapply real_plain; [exact P| |exact R]; apply A).
        intros H. exact (h_own fail ev ru rg I3 outE free I3E AT cs _ _ _ _ Hfree _ _ _ A H).
      - intros a. eapply h_bind; [apply (h_mode fail I3 outE free I3E AT cs); exact Hfree|]. intros a'.
        destruct (eKind e) eqn:K; try (apply h_throw; exact I3E). intros t1 t2 y [(Ht1 & L1) Dt] H. pose proof Ht1 as (Wt & A1 & A2).
        apply cleanDir_goal in H; [|now apply wf_tree|now destruct Wt]. pose proof H as ((SB & _ & O) & AtCs & _).
        assert (IT : forall q, ~ inTarget m o q -> get (cFs t2) q = get (cFs t1) q).
        { intros q Nq. destruct (below cs q) eqn:B; [|now apply O]. apply below_iff in B as [rel ->]. destruct rel as [|n rest]; [now rewrite app_nil_r|].
          elim Nq. exists t, (cdPath d), cs, n, rest. destruct P as (P1 & _). auto 10. }
        assert (OE : outE (cFs t2)).
        { split.
          - intros q z Pq G. rewrite IT by (apply Pq). now apply A1.
          - intros q z Pq G. rewrite IT by (apply Pq). now apply A2. }
        destruct y as [[]| |]; auto. split; [split; [|exact OE]|].
        + eapply wf_cleanDir; [exact Wt|now apply Dt|exact H].
        + eapply lf_sub; eassumption. }
    apply HB. split; assumption.
  - eapply h_bind; [apply h_find, out2_E|]. intros mp. eapply h_bind with (Q := fun _ => I2).
    + eapply h_weak; [apply (h_pathCreate maxLinks fail ev I2 out2_wf out2_put)|..]; cbn; auto using out2_E. tauto.
    + intros a. eapply h_bind; [apply h_reads, out2_E|]. intros l t1 t2 y [A R]. assert (l = cs) as -> by (eapply real_plain; [exact P| |exact R]; apply A).
      intros H. exact (h_own fail ev ru rg I2 outE free out2_E out2_attr cs _ _ _ _ Hfree _ _ _ A H).
Qed.
Lemma out_after fuel m' ds : mapR (step1 f0 m o) (cmTargets m) = Ok ds -> hoare I2 (after fuel m' o ds pg) (fun _ => outE) outE.
Proof.
  intros M1. apply mapR_inv in M1. assert (IE : forall f, I f -> outE f) by (intros f [_ A]; exact A). assert (IW : forall f, I f -> wf f) by (intros f [A _]; exact A).
  eapply h_bind with (Q := fun _ => I).
  - eapply h_weak; [apply (h_forM ds _ I2 outE); [apply out2_E|]|..]; cbn.
    + intros d Hd. destruct (Forall2_right _ _ _ d M1 Hd) as (t & Ht & H1). eapply out_step2; eassumption.
    + auto.
    + intros _ f [A _]. exact A.
    + auto.
  - intros a. eapply h_bind.
    + apply (h_forM _ _ I outE); [exact IE|]. intros mp _. apply (h_step3 maxLinks fail part ev ru rg I outE free IE IW); [|exact out_attr|exact out_new|]; intros; now apply out_put.
    + intros a'. eapply h_bind.
      * apply (h_forM _ _ I outE); [exact IE|]. intros k _. apply (h_linkCreate maxLinks fail part ev ru rg I outE free IE IW out_attr out_new); intros; now apply out_put.
      * intros a''. now apply h_ret.
Qed.
End Outside.
Lemma outside fuel m o b s s' x : wf (cFs s) -> manifestTargetFind (cmTargets m) pgData = Ok b ->
  (forall t p, In t (cmTargets m) -> targetPathOf m o t = Ok p -> exists cs, plainAt (cFs s) p cs) -> run fuel m o s = (s', x) ->
  outE (cFs s) m o (mtPath b) (cFs s').
Proof.
  intros W B PL H. apply run_cases in H as [(-> & _)|(ds & b' & M1 & B' & H)]; [apply out2_E with (f0 := cFs s); now apply out_start|].
  rewrite B in B'. injection B' as <-.
  assert (HB : hoare (fun f => f = cFs s) (mbind (removeControl maxLinks fail (mtPath b)) (fun _ => after fuel (skipFiles o m) o ds (mtPath b)))
    (fun _ => outE (cFs s) m o (mtPath b)) (outE (cFs s) m o (mtPath b))).
  { eapply h_bind; [now apply out_control|]. intros a. eapply out_after; eauto. }
  specialize (HB s s' x eq_refl H). now destruct x.
Qed.

Lemma info_real f fl p r e : info maxLinks f fl p = Ok (Some (r, e)) -> real maxLinks f fl p = Ok r.
Proof.
  unfold info. destruct (real maxLinks f fl p) as [q|y|]; [|destruct y; discriminate|discriminate]. destruct q as [|k q]; [now intros [= <- _]|].
  destruct (get f (k :: q)); [now intros [= <- _]|discriminate].
Qed.
(** ** No file is left that is not in the backup *)
Lemma keep_back f0 f m ig rel : wf f0 -> filesFrom f0 f -> forall name r base e, keep f m ig name r base rel -> get f (r ++ rel) = Some e -> isFile e = true ->
  keep f0 m ig name r base rel.
Proof.
  intros W FF. induction rel as [|n rest IH]; intros name r base e; [auto|]. cbn [keep]. intros K G F. destruct (get f (r ++ [n])) as [x|] eqn:Gx; [|contradiction].
  destruct (FF _ _ G F) as (d & Gd & Sd). destruct rest as [|k rest].
  - rewrite Gd. unfold same in Sd. rewrite Gx in G. injection G as ->. rewrite Sd. unfold isFile in F. destruct (eKind e); try discriminate. exact K.
  - destruct (eKind x) eqn:Kx.
    + destruct K as [K _]. discriminate.
    + pose proof (wf_closed f0 r W [] n (k :: rest)) as C. cbn in C. destruct (get f0 (r ++ [n])) as [y|] eqn:Gy; [|elim C; congruence].
      assert (Ky : eKind y = KPath). { rewrite app_cons in Gd. exact (wf_tree f0 W _ _ _ _ _ Gd Gy). }
      rewrite Ky. destruct K as (K1 & K2 & [K3|K3]); [discriminate|]. split; [exact K1|]. split; [exact K2|]. right. rewrite app_cons in G. eapply IH; eassumption.
    + destruct K as [K _]. discriminate.
    + contradiction.
Qed.
Lemma forM_app {A} (l1 l2 : list A) k s : forM (l1 ++ l2) k s = mbind (forM l1 k) (fun _ => forM l2 k) s.
Proof.
  revert s. induction l1 as [|a l1 IH]; intros s; [reflexivity|]. cbn [forM app]. unfold mbind in *. destruct (k a s) as [s1 [[]|y|]]; auto.
Qed.
Lemma step1_name f m o t d : step1 f m o t = Ok d -> cdName d = targetNameOf o t.
Proof.
  unfold step1, step1One, targetNameOf. destruct (manifestTargetPath _ _) as [p|y|]; cbn [bind]; try discriminate.
  destruct (info _ _ _ _) as [i|y|]; cbn [bind]; try discriminate. destruct i as [[r e]|]; [|intros [= <-]; reflexivity].
  destruct (_ && negb (evUser ev =? _)); [discriminate|]. destruct (negb _); [discriminate|].
  destruct (if coDelta o then _ else _) as [[]|y|]; cbn [bind]; try discriminate. intros [= <-]. reflexivity.
Qed.
Lemma no_stale fuel m o b t p cs s s' m' rel e : wf (cFs s) -> manifestTargetFind (cmTargets m) pgData = Ok b ->
  (forall t p, In t (cmTargets m) -> targetPathOf m o t = Ok p -> exists cs, plainAt (cFs s) p cs) -> run fuel m o s = (s', Ok m') ->
  In t (cmTargets m) -> targetPathOf m o t = Ok p -> plainAt (cFs s) p cs -> mtFile t = None ->
  rel <> [] -> get (cFs s') (cs ++ rel) = Some e -> isFile e = true ->
  keep (cFs s) (skipFiles o m) (ignoreList o) (targetNameOf o t) cs (strEqb (mtName t) pgData) rel.
Proof.
  intros W B PL H Ht TP P MF NR G F. pose proof (no_file _ _ _ _ _ _ _ _ _ _ _ _ H) as FF. apply run_cases in H as [(_ & N & _)|(ds & b' & M1 & B' & H)]; [now elim (N m')|].
  rewrite B in B'. injection B' as <-. pose proof M1 as M2. apply mapR_inv in M2. destruct (Forall2_left _ _ _ t M2 Ht) as (d & Hd & S1).
  pose proof (step1_name _ _ _ _ _ S1) as DN. apply step1_cases in S1 as (T & DB & TP' & S1). rewrite TP in TP'. injection TP' as TP'.
  set (f0 := cFs s) in *. rewrite <- DB, <- DN.
  (* the directory existed *)
  destruct (FF _ _ G F) as (d0 & G0 & _).
  assert (EX : cdExists d = true).
  { destruct S1 as [(_ & S1)|(X & _)]; [|exact X]. exfalso. rewrite <- TP' in S1.
    assert (L0 : linksFrom f0 f0) by (intros q y A C; exists y; auto).
    assert (HN : exists a c, cs = a ++ c /\ a <> [] /\ get f0 a = None).
    { unfold info in S1. destruct (real maxLinks f0 true p) as [r|y|] eqn:R; [| |discriminate].
      - pose proof (real_plain maxLinks f0 f0 p cs true r P L0 R) as ->. destruct cs as [|c cs]; [discriminate|]. destruct (get f0 (c :: cs)) eqn:Gc; [discriminate|].
        exists (c :: cs), []. rewrite app_nil_r. auto with *.
      - destruct y; try discriminate. pose proof (plain_nolink f0 f0 p cs P L0) as N. destruct P as (Sp & Fp & _). unfold real in R. rewrite Sp, resolve_unfold in R. cbn [strEqb orb] in R.
        apply resolve_plain_missing in R; auto. }
    destruct HN as (a & c & -> & Na & Ga). destruct (exists_last Na) as (a1 & n1 & ->).
    pose proof (wf_closed f0 a1 W [] n1 (c ++ rel)) as C. cbn in C. rewrite Ga in C. elim C; [|reflexivity]. rewrite <- !app_assoc in G0. cbn in G0. congruence. }
  apply in_split in Hd as (l1 & l2 & ->).
  set (J := fun f => forall rel e, rel <> [] -> get f (cs ++ rel) = Some e -> isFile e = true ->
    keep f0 (skipFiles o m) (ignoreList o) (cdName d) cs (cdBase d) rel).
  assert (Jdel : forall f bad, J f -> J (del f bad)).
  { intros f bad A rel1 e1 N1 G1. rewrite get_del in G1. destruct (bad _); [discriminate|]. eauto. }
  assert (Jattr : forall f q g, J f -> (forall e, eKind (g e) = eKind e) -> J (attr q g f)).
  { intros f q g A K rel1 e1 N1 G1 F1. apply sub_attr in G1 as (x & Gx & Sx); [|exact K]. eapply A; eauto. now rewrite (isFile_kind _ _ Sx). }
  assert (Jput : forall f q e, J f -> isFile e = false -> J (put f q e)).
  { intros f q x A Fx rel1 e1 N1 G1 F1. rewrite get_put in G1. destruct (pathEqb _ _); [congruence|]. eauto. }
  set (Q := fun f => outI2 f0 m o (mtPath b) f /\ filesFrom f0 f).
  assert (HC : hoare (fun f => f = f0) (removeControl maxLinks fail (mtPath b)) (fun _ => Q) (fun _ => True)).
  { eapply h_weak; [apply (h_and _ _ (fun f => filesFrom f0 f) _ (fun _ f => filesFrom f0 f) _ (fun _ => True) (out_control f0 m o (mtPath b) W))|..].
    - eapply h_weak; [eapply j_control with (J := filesFrom f0); auto using ff_del, ff_attr, ff_put|..]; auto.
    - intros f ->. split; [reflexivity|]. intros q x A C. exists x. split; [exact A|reflexivity].
    - intros a f A. exact A.
    - auto. }
  assert (H2 : forall t d, In t (cmTargets m) -> step1 f0 m o t = Ok d -> hoare Q (step2One maxLinks fail part ev ru rg fuel (skipFiles o m) o d) (fun _ => Q) (fun _ => True)).
  { intros t1 d1 Ht1 S1'. eapply h_weak; [apply (h_and _ _ (fun f => filesFrom f0 f) _ (fun _ f => filesFrom f0 f) _ (fun _ => True) (out_step2 f0 m o (mtPath b) PL fuel (skipFiles o m) t1 d1 Ht1 S1'))|..]; auto.
    eapply h_weak; [eapply j_step2 with (J := filesFrom f0); auto using ff_del, ff_attr, ff_put|..]; auto. }
  assert (HD : hoare Q (step2One maxLinks fail part ev ru rg fuel (skipFiles o m) o d) (fun _ => J) (fun _ => True)).
  { unfold step2One. rewrite EX, T, MF. eapply h_bind; [now apply h_find|]. intros mp. eapply h_bind; [now apply h_reads|]. intros [[r x]|]; [|now apply h_throw].
    intros t1 t2 y ((Hq & _) & Ei).
    assert (r = cs) as ->.
    { apply info_real in Ei. rewrite <- TP' in Ei. eapply real_plain; [exact P|apply Hq|exact Ei]. }
    assert (Hfree : free f0 m o (mtPath b) cs).
    { left. intros [_ A]. apply A. exists t, p. split; [exact Ht|]. split; [exact TP|]. now destruct P. }
    assert (AT : forall f q g, Q f -> free f0 m o (mtPath b) q -> (forall e, eKind (g e) = eKind e) -> Q (attr q g f)).
    { intros f q g [A1 A2] A3 K. split; [now apply out2_attr|now apply ff_attr]. }
    assert (HB : hoare Q (mbind (reads (fun f => real maxLinks f false (cdPath d))) (fun l =>
            mbind (cleanOwnership fail ev ru rg l (mpUser mp) (mpGroup mp) (eUser x) (eGroup x)) (fun _ =>
            mbind (cleanMode fail cs (mpMode mp) x) (fun _ =>
            match eKind x with
            | KPath => cleanDir fail part ev ru rg fuel (skipFiles o m) (ignoreList o) true (cdName d) cs (cdBase d)
            | _ => throw EFileOpen
            end)))) (fun _ => J) (fun _ => True)).
    { eapply h_bind; [now apply h_reads|]. intros l. eapply h_bind with (Q := fun _ => Q).
      - intros u1 u2 z [A R]. rewrite <- TP' in R. assert (l = cs) as -> by (eapply real_plain; [exact P| |exact R]; apply A).
        intros Hx. exact (h_own fail ev ru rg Q (fun _ => True) (free f0 m o (mtPath b)) (fun _ _ => Logic.I) AT cs _ _ _ _ Hfree _ _ _ A Hx).
      - intros a. eapply h_bind; [apply (h_mode fail Q (fun _ => True) (free f0 m o (mtPath b)) (fun _ _ => Logic.I) AT cs); exact Hfree|]. intros a'.
        destruct (eKind x); try (now apply h_throw). intros u1 u2 z [A1 A2] Hc. pose proof (out2_wf _ _ _ _ _ A1) as Wu. apply cleanDir_goal in Hc; [|now apply wf_tree|now destruct Wu].
        destruct z as [[]|z|]; auto. destruct Hc as (_ & _ & _ & Hc). specialize (Hc eq_refl (wf_closed _ _ Wu)). intros rel1 e1 N1 G1 F1.
        pose proof G1 as G2. rewrite Hc in G2 by exact N1. destruct (want_attr _ _ _ _ _ _ _ _ _ _ _ G2) as ((y1 & Gy & Ky) & _).
        eapply (keep_back f0 (cFs u1)); [exact W|exact A2| |exact Gy|now rewrite (isFile_kind _ _ Ky)]. apply (want_keep ev ru rg). congruence. }
    apply HB. exact Hq. }
  assert (HB : hoare (fun f => f = f0) (mbind (removeControl maxLinks fail (mtPath b)) (fun _ => after fuel (skipFiles o m) o (l1 ++ d :: l2) (mtPath b))) (fun _ => J) (fun _ => True)).
  { eapply h_bind; [exact HC|]. intros a. eapply h_bind with (Q := fun _ => J).
    - intros t1 t2 y Hq. rewrite forM_app. revert Hq. revert t1 t2 y. change (hoare Q (mbind (forM l1 (step2One maxLinks fail part ev ru rg fuel (skipFiles o m) o)) (fun _ => forM (d :: l2) (step2One maxLinks fail part ev ru rg fuel (skipFiles o m) o))) (fun _ => J) (fun _ => True)).
      eapply h_bind with (Q := fun _ => Q).
      + apply h_forM; [auto|]. intros d1 Hd1. destruct (Forall2_right _ _ _ d1 M2) as (t1 & Ht1 & S1'); [apply in_or_app; now left|]. eapply H2; eassumption.
      + intros a1. cbn [forM]. eapply h_bind with (Q := fun _ => J); [|intros a2; eapply h_weak; [apply (j_forM J); intros d2; apply (j_step2 maxLinks fail part ev ru rg J Jdel Jattr Jput)|..]; auto].
        exact HD.
    - intros a1. eapply h_weak with (P := J) (Q := fun _ => J) (E := J); [|auto|auto|auto].
      eapply h_bind with (Q := fun _ => J); [apply h_forM; [auto|]; intros mp _; eapply j_step3 with (J := J); auto|].
      intros a2. eapply h_bind with (Q := fun _ => J); [apply h_forM; [auto|]; intros mp _; eapply j_link with (J := J); auto|].
      intros a3. apply h_ret. auto. }
  specialize (HB s s' (Ok m') eq_refl H). cbn in HB. eapply HB; eassumption.
Qed.
End Sys.
