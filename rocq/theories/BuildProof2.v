(** The walk over the data directory. *)
From Coq Require Import String.
From Verif Require Import Base Str NumModel ManifestPackModel ManifestModel RegModel RegSpec RegNameModel LinkCheckModel SelectSpec SelectProof UnloggedModel UnloggedSpec UnloggedProof
  BuildModel BuildSpec BuildProof.
Open Scope Z_scope.
Open Scope list_scope.

Definition adds {A} (l l' : list A) (S : A -> Prop) : Prop := exists x, l' = l ++ x /\ forall a, In a x <-> S a.
Lemma adds_none {A} (l : list A) S : (forall a, ~ S a) -> adds l l S.
Proof. intros H. exists []. split; [now rewrite app_nil_r|]. intros a. split; [intros [] | intros F; exact (H a F)]. Qed.
Lemma adds_one {A} (l : list A) x S : (forall a, S a <-> a = x) -> adds l (l ++ [x]) S.
Proof. intros H. exists [x]. split; [reflexivity|]. intros a. rewrite H. cbn [In]. intuition congruence. Qed.
Lemma adds_seq {A} (l l1 l2 : list A) S T : adds l l1 S -> adds l1 l2 T -> adds l l2 (fun a => S a \/ T a).
Proof. intros (x & -> & HX) (y & -> & HY). exists (x ++ y). split; [now rewrite app_assoc|]. intros a. rewrite in_app_iff, HX, HY. reflexivity. Qed.
Lemma adds_ext {A} (l l' : list A) S T : (forall a, S a <-> T a) -> adds l l' S -> adds l l' T.
Proof. intros H (x & -> & HX). exists x. split; [reflexivity|]. intros a. rewrite HX. apply H. Qed.

(** The links checked one after the other *)
Fixpoint runCheck (ts : list mtarget) (l : list litem) (todo : list mtarget) : res (list litem) :=
  match todo with [] => Ok l | t :: r => let* l := manifestLinkCheckOne ts l t in runCheck ts l r end.
Lemma runCheck_app ts a : forall b l l1 l2, runCheck ts l a = Ok l1 -> runCheck ts l1 b = Ok l2 -> runCheck ts l (a ++ b) = Ok l2.
Proof.
  induction a as [| t a IH]; intros b l l1 l2 H1 H2; cbn [runCheck app] in *; [injection H1 as <-; exact H2|].
  destruct (manifestLinkCheckOne ts l t); try discriminate. cbn [bind] in *. exact (IH b _ _ _ H1 H2).
Qed.
Lemma runCheck_loop ts todo : forall l l', runCheck ts l todo = Ok l' -> linkCheckLoop ts l todo = Ok tt.
Proof.
  induction todo as [| t r IH]; intros l l' H; cbn [runCheck linkCheckLoop] in *; [reflexivity|]. destruct (manifestLinkCheckOne ts l t); try discriminate. cbn [bind] in *. exact (IH _ _ H).
Qed.
(** The check needs only the target of the data directory *)
Lemma check_base t0 rest l t : mtName t0 = pgData -> manifestLinkCheckOne (t0 :: rest) l t = manifestLinkCheckOne [t0] l t.
Proof.
  intros H. unfold manifestLinkCheckOne, manifestTargetPath, manifestTargetFind. cbn [find]. rewrite H, strEqb_refl. reflexivity.
Qed.

Section Walk.
Variables (w : bworld) (o : bopts) (dbExp tempExp : re) (base : mpath) (t0 : mtarget).
Hypothesis HDB : forall s, regExpMatch dbExp s = true <-> isDbPath (boTid o) s.
Hypothesis HTMP : forall s, regExpMatch tempExp s = true <-> tempRelation s.
Hypothesis HBASE : mpName base = pgData.
Hypothesis HT0 : mtName t0 = pgData.

Definition Inv (m : bman) : Prop :=
  (exists rest, bmPaths m = base :: rest) /\ (forall p, In p (bmPaths m) -> mpName p = sSpc -> p = like base sSpc) /\ exists rest, bmTargets m = t0 :: rest.
Definition hasPath (m : bman) (s : str) : Prop := exists p, In p (bmPaths m) /\ mpName p = s.
Record grown (m m' : bman) (N : node -> Prop) : Prop := {
  gFiles : adds (bmFiles m) (bmFiles m') (fun f => exists n, N n /\ fileNode o n f);
  gLinks : adds (bmLinks m) (bmLinks m') (fun k => exists n, N n /\ mlinkNode o n k);
  gTargets : exists T, bmTargets m' = bmTargets m ++ T /\ (forall t, In t T <-> exists n, N n /\ targetNode w o n t) /\ runCheck [t0] (bmCheck m) T = Ok (bmCheck m');
  gPaths : exists X, bmPaths m' = bmPaths m ++ X /\
    (forall p, In p X -> exists n, N n /\ (pathNode o n p \/ (spcNode o n /\ (p = like base sSpc \/ spcPath (bmPaths m') n p)))) /\
    (forall n p, N n -> pathNode o n p -> In p X);
  gSpc : forall n, N n -> spcNode o n -> In (like base sSpc) (bmPaths m') /\ exists p, spcPath (bmPaths m') n p /\ In p (bmPaths m');
  gFine : forall n e, N n -> ~ bad w o n e }.

Lemma grown_ext m m' N N' : (forall n, N n <-> N' n) -> grown m m' N -> grown m m' N'.
Proof.
  intros H [G1 G2 G3 G4 G5 G6]. constructor.
  - eapply adds_ext; [| exact G1]. intros f. split; intros (n & Hn & Hf); exists n; (split; [apply H, Hn | exact Hf]).
  - eapply adds_ext; [| exact G2]. intros f. split; intros (n & Hn & Hf); exists n; (split; [apply H, Hn | exact Hf]).
  - destruct G3 as (T & E & HT & HC). exists T. split; [exact E|]. split; [| exact HC]. intros t. rewrite HT. split; intros (n & Hn & Hf); exists n; (split; [apply H, Hn | exact Hf]).
  - destruct G4 as (X & E & HX & HY). exists X. split; [exact E|]. split.
    + intros p Hp. destruct (HX p Hp) as (n & Hn & HP). exists n. split; [apply H, Hn | exact HP].
    + intros n p Hn. apply HY, H, Hn.
  - intros n Hn. apply G5, H, Hn.
  - intros n e Hn. apply G6, H, Hn.
Qed.
Lemma spcPath_more l x n p : spcPath l n p -> spcPath (l ++ x) n p.
Proof. intros (t & Ht & E). exists t. split; [apply in_or_app; now left | exact E]. Qed.
Lemma grown_seq m m1 m2 N1 N2 : grown m m1 N1 -> grown m1 m2 N2 -> grown m m2 (fun n => N1 n \/ N2 n).
Proof.
  intros [F1 F2 F3 F4 F5 F6] [G1 G2 G3 G4 G5 G6]. constructor.
  - eapply adds_ext; [| exact (adds_seq _ _ _ _ _ F1 G1)]. intros f. split; [intros [(n & A & B) | (n & A & B)]; eauto | intros (n & [A | A] & B); eauto].
  - eapply adds_ext; [| exact (adds_seq _ _ _ _ _ F2 G2)]. intros f. split; [intros [(n & A & B) | (n & A & B)]; eauto | intros (n & [A | A] & B); eauto].
  - destruct F3 as (T1 & E1 & H1 & C1), G3 as (T2 & E2 & H2 & C2). exists (T1 ++ T2). split; [rewrite E2, E1, app_assoc; reflexivity|]. split; [| exact (runCheck_app _ _ _ _ _ _ C1 C2)].
    intros t. rewrite in_app_iff, H1, H2. split; [intros [(n & A & B) | (n & A & B)]; eauto | intros (n & [A | A] & B); eauto].
  - destruct F4 as (X1 & E1 & H1 & C1), G4 as (X2 & E2 & H2 & C2). exists (X1 ++ X2). split; [rewrite E2, E1, app_assoc; reflexivity|]. split.
    + intros p Hp. apply in_app_or in Hp. destruct Hp as [Hp | Hp].
      * destruct (H1 p Hp) as (n & A & B). exists n. split; [now left|]. destruct B as [B | (B & [B' | B'])]; [now left | now right; split; [|left] | right; split; [exact B | right]].
        rewrite E2. apply spcPath_more, B'.
      * destruct (H2 p Hp) as (n & A & B). exists n. split; [now right | exact B].
    + intros n p [A | A] B; apply in_or_app; [left; exact (C1 n p A B) | right; exact (C2 n p A B)].
  - destruct G4 as (X2 & E2 & _). intros n [A | A] B; [| exact (G5 n A B)]. destruct (F5 n A B) as [P1 (p & P2 & P3)]. rewrite E2. split; [apply in_or_app; now left|].
    exists p. split; [apply spcPath_more, P2 | apply in_or_app; now left].
  - intros n e [A | A]; [exact (F6 n e A) | exact (G6 n e A)].
Qed.
Lemma grown_nobody m (N : node -> Prop) : (forall n, ~ N n) -> grown m m N.
Proof.
  intros H. constructor.
  - apply adds_none. intros a (n & A & _). exact (H n A).
  - apply adds_none. intros a (n & A & _). exact (H n A).
  - exists []. split; [now rewrite app_nil_r|]. split; [| reflexivity]. intros t. split; [intros [] | intros (n & A & _); exact (H n A)].
  - exists []. split; [now rewrite app_nil_r|]. split; [intros p []|]. intros n p A. elim (H n A).
  - intros n A. elim (H n A).
  - intros n e A. elim (H n A).
Qed.
Lemma slash_has a b : In 47 (slash a b).
Proof. unfold slash. apply in_or_app. right. now left. Qed.
Lemma spc_noslash : ~ In 47 sSpc.
Proof. vm_compute. intuition discriminate. Qed.
Lemma slash_spc a b : slash a b <> sSpc.
Proof. intros E. apply spc_noslash. rewrite <- E. apply slash_has. Qed.
Lemma grown_inv m m' N : grown m m' N -> Inv m -> Inv m'.
Proof.
  intros [_ _ (T & ET & _) (X & EX & HX & _) _ _] ((r & E) & HS & (u & EU)). split; [exists (r ++ X); rewrite EX, E; reflexivity|]. split; [| exists (u ++ T); rewrite ET, EU; reflexivity].
  intros p Hp En. rewrite EX in Hp. apply in_app_or in Hp. destruct Hp as [Hp | Hp]; [exact (HS p Hp En)|].
  destruct (HX p Hp) as (n & _ & [(_ & _ & ->) | (_ & [-> | (t & _ & _ & ->)])]); [| reflexivity |]; cbn [mpName like] in En; elim (slash_spc _ _ En).
Qed.
Lemma grown_has m m' N s : grown m m' N -> hasPath m s -> hasPath m' s.
Proof. intros [_ _ _ (X & EX & _) _ _] (p & Hp & E). exists p. split; [rewrite EX; apply in_or_app; now left | exact E]. Qed.

(** A place by itself and what is next *)
Lemma below_iff n x : below w o n x <-> n = x \/ exists c, step w o n c /\ below w o c x.
Proof.
  split.
  - intros H. destruct H as [n | a b c H1 H2]; [now left | right; eauto].
  - intros [-> | (c & H1 & H2)]; [apply BelowHere | exact (BelowNext w o n c x H1 H2)].
Qed.
Lemma grown_below m m1 m' n : grown m m1 (eq n) -> grown m1 m' (fun x => exists c, step w o n c /\ below w o c x) -> grown m m' (below w o n).
Proof. intros H1 H2. eapply grown_ext; [| exact (grown_seq _ _ _ _ _ H1 H2)]. intros x. rewrite below_iff. reflexivity. Qed.
Lemma grown_leaf m m' n : grown m m' (eq n) -> (forall c, ~ step w o n c) -> grown m m' (below w o n).
Proof. intros H1 H2. eapply grown_below; [exact H1 | apply grown_nobody]. intros x (c & F & _). exact (H2 c F). Qed.
(** A place that leaves nothing *)
Lemma grown_same m n : (ofType BFile n -> hidden o n \/ leftOut o n) -> (ofType BPath n -> hidden o n) -> (ofType BLink n -> hidden o n) -> (~ hidden o n -> inSpc n -> ~ ofType BFile n) -> grown m m (eq n).
Proof.
  intros HF HP HL HI. constructor.
  - apply adds_none. intros f (x & <- & A & B & C & _). destruct (HF A); contradiction.
  - apply adds_none. intros f (x & <- & (A & B) & _). exact (B (HL A)).
  - exists []. split; [now rewrite app_nil_r|]. split; [| reflexivity]. intros t. split; [intros [] | intros (x & <- & (A & B) & _); exact (B (HL A))].
  - exists []. split; [now rewrite app_nil_r|]. split; [intros p []|]. intros x p <- (A & B & _). elim (B (HP A)).
  - intros x <- ((A & B) & _). elim (B (HL A)).
  - intros x e <- HB. destruct HB as [[A | A] B C | e (A & B) _ | p j (A & B) _ _ _ | e ((A & B) & _) _ | id l ((A & B) & _) _ _ _ | id p j ((A & B) & _) _ _ _ _ _ | p (A & B) _ _]; auto.
    exact (HI B C A).
Qed.
Lemma types_differ n a b : ofType a n -> ofType b n -> a = b.
Proof. unfold ofType. congruence. Qed.
Ltac ty := repeat match goal with H : ofType ?a ?n, H' : ofType ?b ?n |- _ => let E := fresh in pose proof (types_differ n a b H H') as E; try discriminate E; clear E H' end.
Lemma grown_path m n : ofType BPath n -> ~ hidden o n -> ~ inSpc n -> grown m (addPath m (mkMpath (nName n) (biMode (nInfo n)) (biUser (nInfo n)) (biGroup (nInfo n)))) (eq n).
Proof.
  intros HT HH HI. constructor; cbn [addPath bmFiles bmLinks bmTargets bmPaths bmCheck].
  - apply adds_none. intros f (x & <- & A & _). ty.
  - apply adds_none. intros f (x & <- & (A & _) & _). ty.
  - exists []. split; [now rewrite app_nil_r|]. split; [| reflexivity]. intros t. split; [intros [] | intros (x & <- & (A & _) & _); ty].
  - eexists. split; [reflexivity|]. split.
    + intros p [<- | []]. exists n. split; [reflexivity|]. left. split; [exact HT|]. split; [exact HH | reflexivity].
    + intros x p <- (_ & _ & ->). now left.
  - intros x <- ((A & _) & _). ty.
  - intros x e <- HB. destruct HB as [A B C | e (A & B) _ | p j (A & B) _ _ _ | e ((A & B) & _) _ | id l ((A & B) & _) _ _ _ | id p j ((A & B) & _) _ _ _ _ _ | p (A & B) _ _]; try ty. contradiction.
Qed.
Lemma grown_file m n : ofType BFile n -> ~ hidden o n -> ~ leftOut o n -> ~ inSpc n -> grown m (addFile m (newFile o (nName n) (nDb n) (nInfo n))) (eq n).
Proof.
  intros HT HH HL HI. constructor; cbn [addFile bmFiles bmLinks bmTargets bmPaths bmCheck].
  - apply adds_one. intros f. split.
    + intros (x & <- & A). apply fileNode_iff in A. apply A.
    + intros ->. exists n. split; [reflexivity|]. apply fileNode_iff. auto.
  - apply adds_none. intros f (x & <- & (A & _) & _). ty.
  - exists []. split; [now rewrite app_nil_r|]. split; [| reflexivity]. intros t. split; [intros [] | intros (x & <- & (A & _) & _); ty].
  - exists []. split; [now rewrite app_nil_r|]. split; [intros p []|]. intros x p <- (A & _). ty.
  - intros x <- ((A & _) & _). ty.
  - intros x e <- HB. destruct HB as [A B C | e (A & B) _ | p j (A & B) _ _ _ | e ((A & B) & _) _ | id l ((A & B) & _) _ _ _ | id p j ((A & B) & _) _ _ _ _ _ | p (A & B) _ _]; try ty. contradiction.
Qed.

(** Paths of a tablespace *)
Lemma find_path l s : findPathB l s = None <-> ~ exists p, In p l /\ mpName p = s.
Proof.
  unfold findPathB. split.
  - intros H (p & Hp & E). pose proof (find_none _ _ H _ Hp) as F. cbn beta in F. rewrite E, strEqb_refl in F. discriminate.
  - intros H. destruct (find _ l) as [p |] eqn:E; [| reflexivity]. apply find_some in E. destruct E as [E1 E2]. apply strEqb_eq in E2. elim H. eauto.
Qed.
Lemma find_path_some l s p : findPathB l s = Some p -> In p l /\ mpName p = s.
Proof. intros H. apply find_some in H. destruct H as [H1 H2]. apply strEqb_eq in H2. auto. Qed.
Definition spcLink (n : node) (m : bman) (r : res (bman * Z * str)) : Prop :=
  (exists e, r = Err e /\ (spcNode o n -> bad w o n e)) \/ r = UB \/
  exists id name X, cvtZToUInt 10 (biName (nInfo n)) = Ok id /\ spcName o n id name /\
    r = Ok (mkBman (bmFiles m) (bmPaths m ++ X) (bmLinks m) (bmTargets m) (bmCheck m), id, name) /\
    (forall p, In p X -> p = like base sSpc \/ spcPath (bmPaths m ++ X) n p) /\ In (like base sSpc) (bmPaths m ++ X) /\ exists p, spcPath (bmPaths m ++ X) n p /\ In p (bmPaths m ++ X).
Lemma tablespace_cases n m : Inv m -> hasPath m (slash sData sSpc) -> spcLink n m (tablespace o m (nInfo n)).
Proof.
  intros ((rest & EP) & HS & _) HH. unfold tablespace. destruct (cvtZToUInt 10 (biName (nInfo n))) as [id | e |] eqn:EI; cbn [bind].
  2: { left. exists e. split; [reflexivity|]. intros H. exact (BadId w o n e H EI). }
  2: { right. now left. }
  assert (HN : (exists name, match boTs o with Some l => match tsName l id with Some n => Ok n | None => Err EAssert end | None => Ok (txt "ts" ++ biName (nInfo n)) end = Ok name /\ spcName o n id name) \/
    (match boTs o with Some l => match tsName l id with Some n => Ok n | None => Err EAssert end | None => Ok (txt "ts" ++ biName (nInfo n)) end = Err EAssert /\
      exists l, boTs o = Some l /\ forall s, ~ In (id, s) l)).
  { unfold spcName. destruct (boTs o) as [l |]; [| left; eexists; split; reflexivity]. destruct (tsName l id) as [s |] eqn:ES.
    - left. exists s. split; [reflexivity|]. apply tsName_some, ES.
    - right. split; [reflexivity|]. exists l. split; [reflexivity|]. apply tsName_none, ES. }
  destruct HN as [(name & -> & HN) | (-> & l & EL & HN)]; cbn [bind].
  2: { left. exists EAssert. split; [reflexivity|]. intros H. exact (BadName w o n id l H EI EL HN). }
  assert (EB : findPathB (bmPaths m) pgData = Some base) by (unfold findPathB; rewrite EP; cbn [find]; rewrite HBASE, strEqb_refl; reflexivity).
  rewrite EB. right. right. exists id, name.
  assert (E1 : exists Y, match findPathB (bmPaths m) pgTblspc with Some _ => m | None => addPath m (mkMpath pgTblspc (mpMode base) (mpUser base) (mpGroup base)) end =
      mkBman (bmFiles m) (bmPaths m ++ Y) (bmLinks m) (bmTargets m) (bmCheck m) /\ (forall p, In p Y -> p = like base sSpc) /\ In (like base sSpc) (bmPaths m ++ Y)).
  { destruct (findPathB (bmPaths m) pgTblspc) as [p |] eqn:EF.
    - exists []. rewrite app_nil_r. split; [destruct m; reflexivity|]. split; [intros q []|]. apply find_path_some in EF. destruct EF as [F1 F2]. rewrite <- (HS p F1 F2). exact F1.
    - exists [like base sSpc]. split; [reflexivity|]. split; [intros q [<- | []]; reflexivity|]. apply in_or_app. right. now left. }
  destruct E1 as (Y & -> & HY & HYI). cbn [bmPaths bmFiles bmLinks bmTargets bmCheck].
  destruct (findPathB (bmPaths m ++ Y) sTblspc) as [t |] eqn:ET.
  2: { exfalso. apply find_path in ET. apply ET. destruct HH as (p & Hp & E). exists p. split; [apply in_or_app; now left | exact E]. }
  apply find_path_some in ET. destruct ET as [T1 T2].
  exists (Y ++ [like t (slash sSpc (biName (nInfo n)))]). split; [exact EI|]. split; [exact HN|].
  assert (HP : spcPath (bmPaths m ++ Y ++ [like t (slash sSpc (biName (nInfo n)))]) n (like t (slash sSpc (biName (nInfo n))))).
  { exists t. split; [rewrite app_assoc; apply in_or_app; now left|]. split; [exact T2 | reflexivity]. }
  split; [unfold addPath; cbn [bmPaths bmFiles bmLinks bmTargets bmCheck]; rewrite <- app_assoc; reflexivity|]. split.
  - intros p Hp. apply in_app_or in Hp. destruct Hp as [Hp | [<- | []]]; [left; exact (HY p Hp) | right; exact HP].
  - split; [rewrite app_assoc; apply in_or_app; now left|]. eexists. split; [exact HP|]. rewrite app_assoc. apply in_or_app. right. now left.
Qed.

(** A link: what is added for it, and where it leads *)
Definition linkCase (n : node) (m : bman) (again : str -> str -> bool -> binfo -> bman -> res bman) (r : res bman) : Prop :=
  (exists e, r = Err e /\ (bad w o n e \/ checkFails o n e)) \/ r = UB \/
  exists m1 c, grown m m1 (eq n) /\ hasPath m1 (nParent c) /\ step w o n c /\ (forall c', step w o n c' -> c' = c) /\ r = again (nParent c) (nPath c) (nDb c) (nInfo c) m1 /\
    bmFiles m1 = bmFiles m /\ exists k t, bmLinks m1 = bmLinks m ++ [k] /\ bmTargets m1 = bmTargets m ++ [t].
Definition nameOk (n : node) (t : mtarget) : Prop :=
  (inSpc n /\ mtName t = slash sSpc (biName (nInfo n)) /\ cvtZToUInt 10 (biName (nInfo n)) = Ok (mtTablespaceId t) /\ exists s, mtTablespaceName t = Some s /\ spcName o n (mtTablespaceId t) s) \/
  (~ inSpc n /\ mtName t = nName n /\ mtTablespaceId t = 0 /\ mtTablespaceName t = None).
Lemma link_tail n m X targetName id tsn parent' pg' linkName again :
  Inv m -> linkNode o n ->
  (forall t, nameOk n t <-> mtName t = targetName /\ mtTablespaceId t = id /\ mtTablespaceName t = tsn) ->
  (id <> 0 -> spcNode o n /\ cvtZToUInt 10 (biName (nInfo n)) = Ok id) -> (inSpc n -> cvtZToUInt 10 (biName (nInfo n)) = Ok id) ->
  (forall p, linkPath o n p <-> p = sub pg' linkName) ->
  (forall p, In p X -> spcNode o n /\ (p = like base sSpc \/ spcPath (bmPaths m ++ X) n p)) ->
  (inSpc n -> In (like base sSpc) (bmPaths m ++ X) /\ exists p, spcPath (bmPaths m ++ X) n p /\ In p (bmPaths m ++ X)) ->
  (exists p, In p (bmPaths m ++ X) /\ mpName p = parent') ->
  (forall j, bwFollow w (sub pg' linkName) = Some j -> forall c, step w o n c <-> c = mkNode parent' pg' (nDb n) (rename linkName j)) ->
  (forall e, bad w o n e -> (exists p, linkPath o n p /\ bwFollow w p = None) \/ (exists k p j, cvtZToUInt 10 (biName (nInfo n)) = Ok k /\ inSpc n /\ k <> 0 /\ linkPath o n p /\ bwFollow w p = Some j /\ biType j <> BPath)) ->
  let m1 := mkBman (bmFiles m) (bmPaths m ++ X) (bmLinks m) (bmTargets m) (bmCheck m) in
  let linked := bwFollow w (sub pg' linkName) in
  linkCase n m again (
    let* target :=
      match linked with
      | Some j =>
          match biType j with
          | BPath => Ok (mkMtarget targetName false (biDest (nInfo n)) None id tsn)
          | _ => if id =? 0 then Ok (mkMtarget targetName false (strPath (biDest (nInfo n))) (Some (strBase (biDest (nInfo n)))) id tsn) else Err EFormat
          end
      | None => Ok (mkMtarget targetName false (biDest (nInfo n)) None id tsn)
      end in
    let m := addLink m1 (mkMlink (nName n) (biDest (nInfo n)) (biUser (nInfo n)) (biGroup (nInfo n))) target in
    let* check := manifestLinkCheckOne (bmTargets m) (bmCheck m) target in
    let m := setCheck m check in
    match linked with
    | None => Err EFileOpen
    | Some j => again parent' pg' (nDb n) (rename linkName j) m
    end).
Proof.
  intros HInv HL HNM HID HID2 HLP HX HSP HHP HST HBAD m1 linked.
  assert (ETS : exists rest, bmTargets m1 = t0 :: rest) by (destruct HInv as (_ & _ & E); exact E).
  assert (TAIL : forall target, (mtPath target = biDest (nInfo n) \/ mtPath target = strPath (biDest (nInfo n))) ->
    (forall j, linked = Some j -> forall t, targetNode w o n t <-> t = target) ->
    (forall j, linked = Some j -> biType j <> BPath -> id = 0) ->
    linkCase n m again (let m := addLink m1 (mkMlink (nName n) (biDest (nInfo n)) (biUser (nInfo n)) (biGroup (nInfo n))) target in
      let* check := manifestLinkCheckOne (bmTargets m) (bmCheck m) target in
      let m := setCheck m check in
      match linked with None => Err EFileOpen | Some j => again parent' pg' (nDb n) (rename linkName j) m end)).
  { intros target HTP HTN HTY. cbv zeta.
    destruct (manifestLinkCheckOne (bmTargets (addLink m1 _ target)) _ target) as [check | e |] eqn:EC; cbn [bind].
    2: { left. exists e. split; [reflexivity|]. right. split; [exact HL|]. eauto. }
    2: { right. now left. }
    destruct linked as [j |] eqn:EJ.
    2: { left. exists EFileOpen. split; [reflexivity|]. left. apply (BadMissing w o n (sub pg' linkName) HL); [apply HLP; reflexivity | exact EJ]. }
    right. right. specialize (HST j EJ). specialize (HTN j eq_refl). specialize (HTY j eq_refl).
    exists (setCheck (addLink m1 (mkMlink (nName n) (biDest (nInfo n)) (biUser (nInfo n)) (biGroup (nInfo n))) target) check), (mkNode parent' pg' (nDb n) (rename linkName j)).
    split; [| split; [exact HHP | split; [apply HST; reflexivity | split; [intros c'; apply HST | split; [reflexivity | split; [reflexivity | eexists; eexists; split; reflexivity]]]]]].
    constructor; cbn [setCheck addLink bmFiles bmLinks bmTargets bmPaths bmCheck m1].
    - apply adds_none. intros f (x & <- & A & _). destruct HL as (A' & _). ty.
    - apply adds_one. intros k. split; [intros (x & <- & _ & ->); reflexivity | intros ->; exists n; split; [reflexivity | split; [exact HL | reflexivity]]].
    - exists [target]. split; [reflexivity|]. split.
      + intros t. split; [intros [<- | []]; exists n; split; [reflexivity | apply HTN; reflexivity] | intros (x & <- & HT); left; symmetry; apply HTN, HT].
      + cbn [runCheck]. destruct ETS as (rest & ETS). cbn [addLink bmTargets bmCheck m1] in EC, ETS. rewrite ETS in EC. cbn [app] in EC. rewrite (check_base t0 _ _ _ HT0) in EC. rewrite EC. reflexivity.
    - exists X. split; [reflexivity|]. split.
      + intros p Hp. exists n. split; [reflexivity|]. right. exact (HX p Hp).
      + intros x p <- (A & _). destruct HL as (A' & _). ty.
    - intros x <- (_ & HI). exact (HSP HI).
    - intros x e <- HB. destruct (HBAD e HB) as [(p & HP & F) | (k & p & j' & HK & HI & NZ & HP & F & HT)]; apply HLP in HP; subst p; fold linked in F; rewrite EJ in F; [discriminate|].
      injection F as <-. rewrite (HID2 HI) in HK. injection HK as <-. exact (NZ (HTY HT)). }
  assert (HPU : forall p q, linkPath o n p -> linkPath o n q -> p = q) by (intros p q P Q; apply HLP in P; apply HLP in Q; congruence).
  destruct linked as [j |] eqn:EJ.
  2: { cbn [bind]. apply (TAIL (mkMtarget targetName false (biDest (nInfo n)) None id tsn)); [now left | discriminate | discriminate]. }
  assert (HD : biType j = BPath \/ biType j <> BPath) by (clear; destruct (biType j); (left; reflexivity) || (right; discriminate)).
  destruct HD as [HD | HD].
  - rewrite HD. cbn [bind]. apply (TAIL (mkMtarget targetName false (biDest (nInfo n)) None id tsn)); [now left | | intros j' E F; congruence].
    intros j' Ej t. clear j' Ej. unfold targetNode. fold (nameOk n t). rewrite HNM. split.
    + intros (_ & B & (C1 & C2 & C3) & p & j' & P & F & H). apply HLP in P. subst p. fold linked in F. rewrite EJ in F. injection F as <-. destruct H as [(_ & H1 & H2) | (H & _)]; [| contradiction].
      destruct t as [x1 x2 x3 x4 x5 x6]. cbn [mtName mtIsPath mtPath mtFile mtTablespaceId mtTablespaceName] in *. congruence.
    + intros ->. cbn [mtName mtIsPath mtPath mtFile mtTablespaceId mtTablespaceName]. split; [exact HL|]. split; [reflexivity|]. split; [auto|].
      exists (sub pg' linkName), j. split; [apply HLP; reflexivity|]. split; [exact EJ|]. left. auto.
  - assert (EM : forall A (a b : A), match biType j with BPath => a | _ => b end = b) by (clear - HD; intros; destruct (biType j); try reflexivity; now elim HD).
    rewrite EM. destruct (Z.eqb_spec id 0) as [-> | NZ]; cbn [bind].
    + apply (TAIL (mkMtarget targetName false (strPath (biDest (nInfo n))) (Some (strBase (biDest (nInfo n)))) 0 tsn)); [now right | | reflexivity].
      intros j' Ej t. clear j' Ej. unfold targetNode. fold (nameOk n t). rewrite HNM. split.
      * intros (_ & B & (C1 & C2 & C3) & p & j' & P & F & H). apply HLP in P. subst p. fold linked in F. rewrite EJ in F. injection F as <-. destruct H as [(H & _) | (_ & H1 & H2)]; [contradiction|].
        destruct t as [x1 x2 x3 x4 x5 x6]. cbn [mtName mtIsPath mtPath mtFile mtTablespaceId mtTablespaceName] in *. congruence.
      * intros ->. cbn [mtName mtIsPath mtPath mtFile mtTablespaceId mtTablespaceName]. split; [exact HL|]. split; [reflexivity|]. split; [auto|].
        exists (sub pg' linkName), j. split; [apply HLP; reflexivity|]. split; [exact EJ|]. right. auto.
    + left. exists EFormat. split; [reflexivity|]. left. destruct (HID NZ) as [H1 H2]. apply (BadSpcFile w o n id (sub pg' linkName) j H1 H2 NZ); [apply HLP; reflexivity | exact EJ | exact HD].
Qed.
Lemma link_cases n m again : Inv m -> hasPath m (nParent n) -> linkNode o n -> linkCase n m again (buildLink w o again (nParent n) (nPath n) (nDb n) (nInfo n) m).
Proof.
  intros HInv HH HL. unfold buildLink. destruct (strPathAbsolute (biDest (nInfo n)) (nPath n)) as [abs | e |] eqn:EA; cbn [bind].
  2: { left. exists e. split; [reflexivity|]. left. exact (BadDest w o n e HL EA). }
  2: { right. now left. }
  assert (HLL : (exists j, bwInfo w abs = Some j /\ biType j = BLink) \/ ((forall j, bwInfo w abs = Some j -> biType j <> BLink) /\
     match bwInfo w abs with Some j => match biType j with BLink => true | _ => false end | None => false end = false)).
  { destruct (bwInfo w abs) as [j |]; [| right; split; [discriminate | reflexivity]]. destruct (biType j) eqn:ET; [right | right | left; eauto | right]; (split; [intros j' E; congruence | reflexivity]). }
  cbv zeta. destruct HLL as [(j & EJ & ET) | (HLL & EL)].
  { left. exists EOther. rewrite EJ, ET. split; [reflexivity|]. left. exact (BadLinkToLink w o n abs j HL EA EJ ET). }
  rewrite EL. clear EL. destruct (strEqb (nParent n) sTblspc) eqn:ES.
  - assert (HI : inSpc n) by (apply inSpc_iff, ES). assert (HS : spcNode o n) by (split; assumption).
    rewrite HI in HH. destruct (tablespace_cases n m HInv HH) as [(e & -> & HB) | [-> | (id & name & X & EI & HN & -> & HX & HX2 & HX3)]]; cbn [bind].
    { left. exists e. split; [reflexivity|]. left. exact (HB HS). }
    { right. now left. }
    refine (link_tail n m X (slash sSpc (biName (nInfo n))) id (Some name) (slash sSpc (biName (nInfo n))) (slash (nPath n) (biName (nInfo n))) (boTid o) again HInv HL _ _ _ _ _ _ _ _ _).
    + intros t. unfold nameOk. split.
      * intros [(_ & A & B & s & C & D) | (F & _)]; [| contradiction]. rewrite EI in B. injection B as B. rewrite <- B in D. split; [exact A|]. split; [congruence|]. rewrite C. f_equal.
        revert D HN. unfold spcName. destruct (boTs o) as [l |]; [| congruence]. intros D HN. apply tsName_some in D, HN. congruence.
      * intros (A & B & C). left. split; [exact HI|]. split; [exact A|]. rewrite B. split; [exact EI|]. eauto.
    + intros _. split; [exact HS | exact EI].
    + intros _. exact EI.
    + intros p. unfold linkPath. split; [intros [(_ & E) | (F & _)]; [exact E | contradiction] | intros ->; left; split; [exact HI | reflexivity]].
    + intros p Hp. split; [exact HS | exact (HX p Hp)].
    + intros _. split; assumption.
    + destruct HX3 as (p & HP & HPI). exists p. split; [exact HPI|]. destruct HP as (t & _ & _ & ->). reflexivity.
    + intros j EJ c. split.
      * intros H. inversion H as [b j' A | j' A B | j' A B]; subst; [destruct HL as (A' & _); ty | contradiction |]. change (slash (slash (nPath n) (biName (nInfo n))) (boTid o)) with (sub (slash (nPath n) (biName (nInfo n))) (boTid o)) in B.
        rewrite EJ in B. injection B as <-. reflexivity.
      * intros ->. exact (StepSpc w o n j HS EJ).
    + intros e HB. destruct HB as [A B C | e (A & B) H1 | p j (A & B) H1 H2 H3 | e ((A & B) & _) H1 | k l ((A & B) & _) H1 H2 H3 | k p j ((A & B) & _) H1 H2 H3 H4 H5 | p (A & B) H1 H2].
      * exfalso. destruct HL as (A' & _). destruct A; ty.
      * congruence.
      * rewrite EA in H1. injection H1 as <-. elim (HLL j H2 H3).
      * congruence.
      * exfalso. rewrite EI in H1. injection H1 as <-. revert HN. unfold spcName. rewrite H2. intros (a & b & -> & _). apply (H3 name). apply in_or_app. right. now left.
      * right. exists k, p, j. auto 10.
      * left. eauto.
  - assert (HI : ~ inSpc n) by (rewrite <- inSpc_iff; congruence).
    assert (EM : mkBman (bmFiles m) (bmPaths m ++ []) (bmLinks m) (bmTargets m) (bmCheck m) = m) by (rewrite app_nil_r; clear; destruct m; reflexivity).
    cbn [bind]. pose proof (fun H1 H2 H3 H4 H5 H6 H7 H8 H9 => link_tail n m [] (nName n) 0 None (nParent n) (nPath n) (biName (nInfo n)) again HInv HL H1 H2 H3 H4 H5 H6 H7 H8 H9) as HTL.
    cbv zeta in HTL. rewrite EM in HTL. apply HTL; clear HTL.
    + intros t. unfold nameOk. split; [intros [(F & _) | (_ & A)]; [contradiction | exact A] | intros A; right; split; [exact HI | exact A]].
    + intros F. now elim F.
    + intros F. contradiction.
    + intros p. unfold linkPath. split; [intros [(F & _) | (_ & E)]; [contradiction | exact E] | intros ->; right; split; [exact HI | reflexivity]].
    + intros p [].
    + intros F. contradiction.
    + rewrite app_nil_r. exact HH.
    + intros j EJ c. split.
      * intros H. inversion H as [b j' A | j' A B C | j' (A & B)]; subst; [destruct HL as (A' & _); ty | | contradiction]. change (slash (nPath n) (biName (nInfo n))) with (sub (nPath n) (biName (nInfo n))) in C.
        rewrite EJ in C. injection C as <-. reflexivity.
      * intros ->. exact (StepLink w o n j HL HI EJ).
    + intros e HB. destruct HB as [A B C | e (A & B) H1 | p j (A & B) H1 H2 H3 | e ((A & B) & F) H1 | k l ((A & B) & F) H1 H2 H3 | k p j ((A & B) & F) H1 H2 H3 H4 H5 | p (A & B) H1 H2]; try contradiction.
      * congruence.
      * rewrite EA in H1. injection H1 as <-. elim (HLL j H2 H3).
      * left. eauto.
Qed.

(** * The whole walk *)
Lemma step_leaf n c : step w o n c -> ~ hidden o n /\ (ofType BPath n \/ ofType BLink n).
Proof. intros H. destruct H as [b j A B _ _ _ | j (A & B) _ _ | j ((A & B) & _) _]; auto. Qed.
Lemma list_ok (one : binfo -> bman -> res bman) (mk : binfo -> node) parent :
  (forall i m m', Inv m -> hasPath m parent -> one i m = Ok m' -> grown m m' (below w o (mk i))) ->
  forall l m m', Inv m -> hasPath m parent -> buildList one l m = Ok m' -> grown m m' (fun x => exists i, In i l /\ below w o (mk i) x).
Proof.
  intros HO. induction l as [| i l IH]; intros m m' HI HP; cbn [buildList].
  - intros E. injection E as <-. apply grown_nobody. intros n (i & [] & _).
  - destruct (one i m) as [m1 | e |] eqn:E1; cbn [bind]; try discriminate. intros E2. pose proof (HO i m m1 HI HP E1) as G1.
    pose proof (IH m1 m' (grown_inv _ _ _ G1 HI) (grown_has _ _ _ _ G1 HP) E2) as G2. eapply grown_ext; [| exact (grown_seq _ _ _ _ _ G1 G2)].
    intros n. split; [intros [H | (k & H & HB)]; [exists i; split; [now left | exact H] | exists k; split; [now right | exact HB]] | intros (k & [<- | H] & HB); [now left | right; eauto]].
Qed.
Lemma list_err (one : binfo -> bman -> res bman) (mk : binfo -> node) parent (P : node -> errkind -> Prop) :
  (forall i m m', Inv m -> hasPath m parent -> one i m = Ok m' -> grown m m' (below w o (mk i))) ->
  (forall i m e, Inv m -> hasPath m parent -> one i m = Err e -> exists x, below w o (mk i) x /\ P x e) ->
  forall l m e, Inv m -> hasPath m parent -> buildList one l m = Err e -> exists i x, In i l /\ below w o (mk i) x /\ P x e.
Proof.
  intros HO HE. induction l as [| i l IH]; intros m e HI HP; cbn [buildList]; [discriminate|].
  destruct (one i m) as [m1 | e1 |] eqn:E1; cbn [bind]; try discriminate.
  - intros E2. pose proof (HO i m m1 HI HP E1) as G1. destruct (IH m1 e (grown_inv _ _ _ G1 HI) (grown_has _ _ _ _ G1 HP) E2) as (k & x & A & B). exists k, x. split; [now right | exact B].
  - intros E2. injection E2 as <-. destruct (HE i m e1 HI HP E1) as (x & A & B). exists i, x. split; [now left | auto].
Qed.
Definition Bad (n : node) (e : errkind) : Prop := bad w o n e \/ checkFails o n e.
Definition dbSub (n : node) : bool := regExpMatch dbExp (nName n).
Lemma step_path n : ofType BPath n -> ~ hidden o n -> ~ emptied o n ->
  forall c, step w o n c <-> exists j, In j (bwList w (slash (nPath n) (biName (nInfo n)))) /\ c = mkNode (nName n) (slash (nPath n) (biName (nInfo n))) (dbSub n) j.
Proof.
  intros HT HH HE c. split.
  - intros H. destruct H as [b j A B C D E | j (A & _) _ _ | j ((A & _) & _) _]; [| ty | ty]. exists j. split; [exact D|]. f_equal. apply bool_iff. rewrite E. symmetry. apply HDB.
  - intros (j & Hj & ->). apply StepPath; try assumption. apply HDB.
Qed.
Lemma info_ok depth : forall n m m', Inv m -> hasPath m (nParent n) -> buildInfo w o dbExp tempExp depth (nParent n) (nPath n) (nDb n) (nInfo n) m = Ok m' -> grown m m' (below w o n).
Proof.
  induction depth as [| depth IH]; intros n m m' HI HP; cbn [buildInfo]; [discriminate|]. cbv zeta.
  change (sub (nParent n) (biName (nInfo n))) with (nName n). destruct (skipEntry o (nName n) (nInfo n)) eqn:EH.
  { apply skipEntry_iff in EH. intros E. injection E as <-. apply grown_leaf; [apply grown_same; auto; contradiction|]. intros c F. apply step_leaf in F. tauto. }
  assert (HH : ~ hidden o n) by (rewrite <- skipEntry_iff; congruence). clear EH. destruct (biType (nInfo n)) eqn:ET.
  - assert (HT : ofType BPath n) by exact ET. destruct (strEqb (nParent n) sTblspc) eqn:ES; [discriminate|]. assert (HS : ~ inSpc n) by (rewrite <- inSpc_iff; congruence).
    pose proof (grown_path m n HT HH HS) as G1. destruct (skipContent o (nParent n) (nName n) (nInfo n)) eqn:EC.
    + apply skipContent_iff in EC. intros E. injection E as <-. apply grown_leaf; [exact G1|]. intros c F. destruct F as [b j A B C D E | j (A & _) _ _ | j ((A & _) & _) _]; [contradiction | ty | ty].
    + assert (HE : ~ emptied o n) by (rewrite <- skipContent_iff; congruence). intros E. eapply grown_below; [exact G1|].
      set (mk := mkNode (nName n) (slash (nPath n) (biName (nInfo n))) (dbSub n)).
      eapply grown_ext; [| refine (list_ok _ mk (nName n) _ _ _ _ (grown_inv _ _ _ G1 HI) _ E)].
      * intros x. split.
        -- intros (i & Hi & HB). exists (mk i). split; [| exact HB]. apply step_path; try assumption. eauto.
        -- intros (c & HC & HB). apply step_path in HC; try assumption. destruct HC as (j & Hj & ->). eauto.
      * intros i m1 m2 I1 P1 E1. exact (IH (mk i) m1 m2 I1 P1 E1).
      * exists (mkMpath (nName n) (biMode (nInfo n)) (biUser (nInfo n)) (biGroup (nInfo n))). split; [cbn [addPath bmPaths]; apply in_or_app; right; now left | reflexivity].
  - assert (HT : ofType BFile n) by exact ET. destruct (strEqb (nParent n) sTblspc) eqn:ES; [discriminate|]. assert (HS : ~ inSpc n) by (rewrite <- inSpc_iff; congruence).
    destruct (skipFile_iff o tempExp n HTMP) as (b & -> & HB). cbn [bind]. assert (HN : forall c, ~ step w o n c) by (intros c F; apply step_leaf in F; destruct F as [_ [F | F]]; ty).
    destruct b; intros E; injection E as <-; (apply grown_leaf; [| exact HN]).
    + apply grown_same; [intros _; right; apply HB; reflexivity | intros F; ty | intros F; ty | intros _ F; contradiction].
    + apply grown_file; try assumption. rewrite <- HB. discriminate.
  - assert (HL : linkNode o n) by (split; assumption). intros E. destruct (link_cases n m (buildInfo w o dbExp tempExp depth) HI HP HL) as [(e & F & _) | [F | (m1 & c & G1 & HP1 & HS & HU & F & _)]]; rewrite F in E; try discriminate.
    eapply grown_below; [exact G1|]. eapply grown_ext; [| exact (IH c m1 m' (grown_inv _ _ _ G1 HI) HP1 E)].
    intros x. split; [intros H; eauto | intros (c' & H1 & H2); rewrite (HU c' H1) in H2; exact H2].
  - intros E. injection E as <-. assert (HT : ofType BSpecial n) by exact ET. apply grown_leaf; [apply grown_same; [intros F; ty | intros F; ty | intros F; ty | intros _ _ F; ty]|].
    intros c F. apply step_leaf in F. destruct F as [_ [F | F]]; ty.
Qed.
Lemma info_err depth : forall n m e, Inv m -> hasPath m (nParent n) -> buildInfo w o dbExp tempExp depth (nParent n) (nPath n) (nDb n) (nInfo n) m = Err e -> exists x, below w o n x /\ Bad x e.
Proof.
  induction depth as [| depth IH]; intros n m e HI HP; cbn [buildInfo]; [discriminate|]. cbv zeta.
  change (sub (nParent n) (biName (nInfo n))) with (nName n). destruct (skipEntry o (nName n) (nInfo n)) eqn:EH; [discriminate|].
  assert (HH : ~ hidden o n) by (rewrite <- skipEntry_iff; congruence). clear EH. destruct (biType (nInfo n)) eqn:ET.
  - assert (HT : ofType BPath n) by exact ET. destruct (strEqb (nParent n) sTblspc) eqn:ES.
    { intros E. injection E as <-. exists n. split; [apply BelowHere|]. left. apply BadSpc; [now left | exact HH | apply inSpc_iff, ES]. }
    assert (HS : ~ inSpc n) by (rewrite <- inSpc_iff; congruence). pose proof (grown_path m n HT HH HS) as G1.
    destruct (skipContent o (nParent n) (nName n) (nInfo n)) eqn:EC; [discriminate|]. assert (HE : ~ emptied o n) by (rewrite <- skipContent_iff; congruence). intros E.
    set (mk := mkNode (nName n) (slash (nPath n) (biName (nInfo n))) (dbSub n)).
    assert (HP1 : hasPath (addPath m (mkMpath (nName n) (biMode (nInfo n)) (biUser (nInfo n)) (biGroup (nInfo n)))) (nName n)).
    { exists (mkMpath (nName n) (biMode (nInfo n)) (biUser (nInfo n)) (biGroup (nInfo n))). split; [cbn [addPath bmPaths]; apply in_or_app; right; now left | reflexivity]. }
    destruct (list_err _ mk (nName n) Bad (fun i m1 m2 I1 P1 E1 => info_ok depth (mk i) m1 m2 I1 P1 E1) (fun i m1 e1 I1 P1 E1 => IH (mk i) m1 e1 I1 P1 E1) _ _ e (grown_inv _ _ _ G1 HI) HP1 E) as (i & x & Hi & HB & HX).
    exists x. split; [| exact HX]. apply (BelowNext w o n (mk i) x); [| exact HB]. apply step_path; try assumption. eauto.
  - assert (HT : ofType BFile n) by exact ET. destruct (strEqb (nParent n) sTblspc) eqn:ES.
    { intros E. injection E as <-. exists n. split; [apply BelowHere|]. left. apply BadSpc; [now right | exact HH | apply inSpc_iff, ES]. }
    destruct (skipFile_iff o tempExp n HTMP) as (b & -> & HB). cbn [bind]. destruct b; discriminate.
  - assert (HL : linkNode o n) by (split; assumption). intros E. destruct (link_cases n m (buildInfo w o dbExp tempExp depth) HI HP HL) as [(e' & F & HB) | [F | (m1 & c & G1 & HP1 & HS & HU & F & _)]]; rewrite F in E; try discriminate.
    + injection E as <-. exists n. split; [apply BelowHere | exact HB].
    + destruct (IH c m1 e (grown_inv _ _ _ G1 HI) HP1 E) as (x & HB & HX). exists x. split; [exact (BelowNext w o n c x HS HB) | exact HX].
  - discriminate.
Qed.
End Walk.
