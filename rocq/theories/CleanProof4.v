From Verif Require Import Base Str ManifestPackModel ManifestModel LinkCheckModel CleanModel CleanSpec CleanProof CleanProof2 CleanProof3.
Open Scope Z_scope.

(** * Reasoning about runs *)
Definition hoare {A} (P : fs -> Prop) (m : M A) (Q : A -> fs -> Prop) (E : fs -> Prop) : Prop :=
  forall s s' o, P (cFs s) -> m s = (s', o) -> match o with Ok a => Q a (cFs s') | _ => E (cFs s') end.
Lemma h_ret {A} (a : A) (P : fs -> Prop) (Q : A -> fs -> Prop) E : (forall f, P f -> Q a f) -> hoare P (ret a) Q E.
Proof. intros H s s' o Hp [= <- <-]. auto. Qed.
Lemma h_throw {A} e (P : fs -> Prop) (Q : A -> fs -> Prop) (E : fs -> Prop) : (forall f, P f -> E f) -> hoare P (throw e) Q E.
Proof. intros H s s' o Hp [= <- <-]. auto. Qed.
Lemma h_bind {A B} (m : M A) (k : A -> M B) P Q R E : hoare P m Q E -> (forall a, hoare (Q a) (k a) R E) -> hoare P (mbind m k) R E.
Proof.
  intros H1 H2 s s' o Hp. unfold mbind. destruct (m s) as [s1 [a|x|]] eqn:E1; specialize (H1 _ _ _ Hp E1); cbn in H1.
  - apply H2. exact H1.
  - intros [= <- <-]. exact H1.
  - intros [= <- <-]. exact H1.
Qed.
Lemma h_reads {A} (g : fs -> res A) (P : fs -> Prop) (E : fs -> Prop) : (forall f, P f -> E f) -> hoare P (reads g) (fun a f => P f /\ g f = Ok a) E.
Proof. intros H s s' o Hp. unfold reads. intros [= <- <-]. destruct (g (cFs s)) eqn:X; auto. Qed.
Lemma h_call fail g h (P : fs -> Prop) (Q : unit -> fs -> Prop) (E : fs -> Prop) : (forall f, P f -> Q tt (g f)) -> (forall f, P f -> E (h f)) -> hoare P (call fail g h) Q E.
Proof. intros H1 H2 s s' o Hp. unfold call. destruct (fail (cN s)); intros [= <- <-]; cbn; auto. Qed.
Lemma h_weak {A} (m : M A) (P P' : fs -> Prop) (Q Q' : A -> fs -> Prop) (E E' : fs -> Prop) : hoare P m Q E -> (forall f, P' f -> P f) -> (forall a f, Q a f -> Q' a f) ->
  (forall f, E f -> E' f) -> hoare P' m Q' E'.
Proof. intros H A1 A2 A3 s s' o Hp X. specialize (H s s' o (A1 _ Hp) X). destruct o; auto. Qed.
Lemma h_forM {A} (l : list A) k (I E : fs -> Prop) : (forall f, I f -> E f) -> (forall a, In a l -> hoare I (k a) (fun _ => I) E) -> hoare I (forM l k) (fun _ => I) E.
Proof.
  intros HE. induction l as [|a l IH]; intros H; cbn [forM]; [now apply h_ret|]. eapply h_bind; [apply H; now left|]. intros ?. apply IH. intros b Hb. apply H. now right.
Qed.
Lemma h_find {A} (o : option A) (P : fs -> Prop) (E : fs -> Prop) : (forall f, P f -> E f) -> hoare P (findOr o) (fun a f => P f /\ o = Some a) E.
Proof. intros H. destruct o; [now apply h_ret|now apply h_throw]. Qed.
Lemma h_pure {A} (m : M A) (P : fs -> Prop) (p : Prop) Q E : (p -> hoare P m Q E) -> hoare (fun f => P f /\ p) m Q E.
Proof. intros H s s' o [Hp Hq]. exact (H Hq s s' o Hp). Qed.

Section Sys.
Variables (maxLinks : nat) (fail : nat -> bool) (part : nat -> path -> bool) (ev : env) (ru rg : option str).
(** ** What keeps an invariant *)
Section Inv.
Variables (I E : fs -> Prop) (free : path -> Prop).
Hypothesis IE : forall f, I f -> E f.
Hypothesis Iwf : forall f, I f -> wf f.
Hypothesis Idir : forall f p c e, I f -> isDir f p -> get f (p ++ [c]) = None -> eKind e = KPath -> I (put f (p ++ [c]) e).
Hypothesis Iattr : forall f p g, I f -> free p -> (forall e, eKind (g e) = eKind e) -> I (attr p g f).
Hypothesis Inew : forall f p, I f -> get f p = None -> free p.

Lemma h_own p user group u g : free p -> hoare I (cleanOwnership fail ev ru rg p user group u g) (fun _ => I) E.
Proof.
  intros F. unfold cleanOwnership. destruct (_ || _); [|now apply h_ret]. apply h_call; [|exact IE]. intros f H. now apply Iattr.
Qed.
Lemma h_mode p mode e : free p -> hoare I (cleanMode fail p mode e) (fun _ => I) E.
Proof.
  intros F. unfold cleanMode. destruct (negb _); [|now apply h_ret]. apply h_call; [|exact IE]. intros f H. now apply Iattr.
Qed.
Lemma wf_nil f : wf f -> get f [] = None.
Proof. now intros (_ & _ & H). Qed.
(** Where something can be created *)
Lemma new_place f fl n t r : wf f -> resolve n f fl [] t = Ok r -> r <> [] -> get f r = None -> exists p c, r = p ++ [c] /\ isDir f p.
Proof.
  intros W R N G. apply resolve_dir in R; [|exact W|now left]. destruct R as [[->|(e & He & _)]|H]; [congruence|congruence|exact H].
Qed.
Lemma h_mkdir p mode : forall s s' o, I (cFs s) -> mkdir maxLinks fail ev p mode s = (s', o) ->
  (o = Ok false /\ I (cFs s') /\ exists r, resolve maxLinks (cFs s) false [] p = Ok r /\ resolve maxLinks (cFs s') false [] p = Ok r /\ get (cFs s) r = None /\ get (cFs s') r <> None) \/
  (o <> Ok false /\ cFs s' = cFs s /\ (o = Ok true -> exists r, resolve maxLinks (cFs s) false [] p = Ok r /\ there (cFs s) r)).
Proof.
  intros s s' o Hi. unfold mkdir, mbind. destruct (resolve maxLinks (cFs s) false [] p) as [r|x|] eqn:R.
  - destruct r as [|k r].
    + intros [= <- <-]. right. split; [discriminate|]. split; [reflexivity|]. intros _. exists []. split; [reflexivity|now left].
    + destruct (get (cFs s) (k :: r)) as [e|] eqn:G.
      * intros [= <- <-]. right. split; [discriminate|]. split; [reflexivity|]. intros _. exists (k :: r). split; [reflexivity|]. right. congruence.
      * unfold createAt, call, ret. destruct (fail (cN s)).
        -- intros [= <- <-]. right. split; [discriminate|]. split; [reflexivity|]. discriminate.
        -- intros [= <- <-]. left. split; [reflexivity|]. cbn [cFs].
           destruct (new_place _ _ _ _ _ (Iwf _ Hi) R) as (p' & c & Er & D); [discriminate|exact G|].
           split; [rewrite Er in *; now apply Idir|]. exists (k :: r). split; [reflexivity|]. split; [|split; [exact G|]].
           ++ apply resolve_put; auto; [discriminate|intros [-> H]; discriminate H|now left].
           ++ rewrite get_put, pathEqb_refl. discriminate.
  - destruct x; intros [= <- <-]; right; (split; [discriminate|]; split; [reflexivity|]; discriminate).
  - intros [= <- <-]; right; (split; [discriminate|]; split; [reflexivity|]; discriminate).
Qed.
Lemma h_pathCreate fuel mode eoe np : forall p, hoare I (pathCreate maxLinks fail ev fuel p eoe np mode) (fun _ => I) I.
Proof.
  induction fuel as [|fuel IH]; intros p; cbn [pathCreate]; [now apply h_throw|]. intros s s' o Hi.
  destruct (mkdir maxLinks fail ev p mode s) as [s1 o1] eqn:M1. apply h_mkdir in M1; [|exact Hi].
  assert (I1 : I (cFs s1)). { destruct M1 as [(_ & H & _)|(_ & -> & _)]; auto. }
  destruct o1 as [b|x|].
  - destruct (b && eoe); intros [= <- <-]; exact I1.
  - assert (X : (s1, Err x) = (s', o) -> match o with Ok _ => I (cFs s') | _ => I (cFs s') end) by (intros [= <- <-]; exact I1).
    destruct x; try exact X. destruct np; [intros [= <- <-]; exact I1|].
    assert (HB : hoare I (mbind (pathCreate maxLinks fail ev fuel (removelast p) eoe false mode) (fun _ => pathCreate maxLinks fail ev fuel p eoe false mode)) (fun _ => I) I).
    { eapply h_bind; [apply IH|]. intros ?. apply IH. }
    intros H. specialize (HB _ _ _ I1 H). destruct o; exact HB.
  - intros [= <- <-]. exact I1.
Qed.

(** ** Steps 3 and 4 *)
Hypothesis Ilink : forall f p c e, I f -> isDir f p -> get f (p ++ [c]) = None -> isLink e = true -> I (put f (p ++ [c]) e).
Lemma info_none_real f fl p r : info maxLinks f fl p = Ok None -> real maxLinks f fl p = Ok r -> r <> [] /\ get f r = None.
Proof.
  unfold info. intros H R. rewrite R in H. destruct r as [|k r]; [discriminate|]. split; [discriminate|]. destruct (get f (k :: r)); [discriminate|reflexivity].
Qed.
Lemma h_linkCreate pg k : hoare I (linkCreate maxLinks fail ev ru rg pg k) (fun _ => I) E.
Proof.
  unfold linkCreate. eapply h_bind; [now apply h_reads|]. intros [x|]; [apply h_ret; tauto|].
  eapply h_bind; [apply h_reads; intros f [H _]; now apply IE|]. intros r.
  intros s s' o ((Hi & H1) & H2). destruct (info_none_real _ _ _ _ H1 H2) as [N G].
  destruct (new_place _ _ _ _ _ (Iwf _ Hi) H2 N G) as (p & c & -> & D). pose proof (Inew _ _ Hi G) as F.
  assert (HB : hoare (fun f => f = cFs s) (mbind (createAt fail (p ++ [c]) (mkEntry (KLink (mlDestination k)) (evUser ev) (evGroup ev) 511))
     (fun _ => cleanOwnership fail ev ru rg (p ++ [c]) (mlUser k) (mlGroup k) (evUser ev) (evGroup ev))) (fun _ => I) E).
  { eapply h_bind with (Q := fun _ => I).
    - unfold createAt. apply h_call; intros f ->; [now apply Ilink|now apply IE].
    - intros ?. now apply h_own. }
  apply HB. reflexivity.
Qed.
Lemma h_step3 fuel m pg mp : hoare I (step3One maxLinks fail ev ru rg fuel m pg mp) (fun _ => I) E.
Proof.
  unfold step3One. destruct (strEqb _ _); [now apply h_ret|]. destruct (findLink _ _) as [k|]; [apply h_linkCreate|].
  eapply h_bind; [now apply h_reads|]. intros [x|]; [apply h_ret; tauto|].
  intros s s' o (Hi & H1). unfold mbind at 1. destruct (pathCreate maxLinks fail ev fuel (splitSlash (pgPathOf pg (mpName mp))) true true (mpMode mp) s) as [s1 o1] eqn:P1.
  assert (C1 : o1 = Ok tt -> I (cFs s1) /\ exists r, real maxLinks (cFs s1) false (pgPathOf pg (mpName mp)) = Ok r /\ get (cFs s) r = None).
  { intros ->. destruct fuel as [|fuel]; [discriminate|]. cbn [pathCreate] in P1. destruct (mkdir _ _ _ _ _ s) as [s2 o2] eqn:M1. apply h_mkdir in M1; [|exact Hi].
    destruct o2 as [b|x|]; [|destruct x; discriminate|discriminate]. destruct b; [discriminate|]. injection P1 as <-.
    destruct M1 as [(_ & Hi2 & r & R1 & R2 & G1 & G2)|(N & _)]; [|congruence]. split; [exact Hi2|]. exists r. auto. }
  pose proof (h_pathCreate fuel (mpMode mp) true true _ _ _ _ Hi P1) as HI. destruct o1 as [[]|x|].
  - destruct (C1 eq_refl) as (I1 & r & R & G). intros H.
    assert (HB : hoare (fun f => f = cFs s1) (mbind (reads (fun f => real maxLinks f false (pgPathOf pg (mpName mp)))) (fun r =>
       cleanOwnership fail ev ru rg r (mpUser mp) (mpGroup mp) (evUser ev) (evGroup ev))) (fun _ => I) E).
    { eapply h_bind; [apply h_reads; intros f ->; now apply IE|]. intros r2 t t' o2 (E1 & E2). rewrite E1, R in E2. injection E2 as <-.
      assert (F : free r) by (exact (Inew _ _ Hi G)). intros X. assert (I2 : I (cFs t)) by (rewrite E1; exact I1).
      exact (h_own r (mpUser mp) (mpGroup mp) (evUser ev) (evGroup ev) F _ _ _ I2 X). }
    apply HB in H; [exact H|reflexivity].
  - intros [= <- <-]. now apply IE.
  - intros [= <- <-]. now apply IE.
Qed.
End Inv.
End Sys.
