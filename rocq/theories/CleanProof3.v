From Verif Require Import Base Str ManifestPackModel ManifestModel LinkCheckModel CleanModel CleanSpec CleanProof CleanProof2.
Open Scope Z_scope.

(** * Finding paths *)
(** All of [f] is in [g], kinds are the same *)
Definition ext (f g : fs) : Prop := forall q e, get f q = Some e -> exists e', get g q = Some e' /\ same e e'.
Lemma ext_refl f : ext f f.
Proof. intros q e H. exists e. split; [exact H|reflexivity]. Qed.
Lemma ext_trans a b c : ext a b -> ext b c -> ext a c.
Proof. intros A B q e H. destruct (A q e H) as (d & Hd & S1). destruct (B q d Hd) as (x & Hx & S2). exists x. split; [exact Hx|]. unfold same in *. congruence. Qed.
Definition there (f : fs) (r : path) : Prop := r = [] \/ get f r <> None.
Definition isDir (f : fs) (r : path) : Prop := r = [] \/ exists e, get f r = Some e /\ eKind e = KPath.

Lemma resolve_unfold n f fl done todo : resolve n f fl done todo =
    match todo with
    | [] => Ok done
    | c :: rest =>
        if strEqb c [] || strEqb c [46] then resolve n f fl done rest
        else if strEqb c [46;46] then resolve n f fl (removelast done) rest
        else
          match get f (done ++ [c]) with
          | None => match rest with [] => Ok (done ++ [c]) | _ => Err EFileMissing end
          | Some e =>
              match eKind e, rest with
              | KPath, _ => resolve n f fl (done ++ [c]) rest
              | KLink d, _ =>
                  if match rest with [] => negb fl | _ => false end then Ok (done ++ [c])
                  else
                    match n with
                    | O => Err EFileOpen
                    | S n => resolve n f fl (if strBeginsWith d [47] then [] else done) (splitSlash d ++ rest)
                    end
              | _, [] => Ok (done ++ [c])
              | _, _ => Err EFileOpen
              end
          end
    end.
Proof. destruct n, todo; reflexivity. Qed.
Lemma resolve_nil n f fl d : resolve n f fl d [] = Ok d.
Proof. now destruct n. Qed.
Ltac ru := repeat match goal with |- context [resolve ?n ?f ?fl ?d (?c :: ?t)] => rewrite (resolve_unfold n f fl d (c :: t)) end.

Lemma resolve_ext f g fl : ext f g -> forall n d t r, resolve n f fl d t = Ok r -> there f r -> resolve n g fl d t = Ok r.
Proof.
  intros X. induction n as [|n IHn]; intros d t; revert d; induction t as [|c rest IH]; intros d r; [now rewrite !resolve_nil|ru|now rewrite !resolve_nil|ru].
  all: destruct (strEqb c [] || strEqb c [46]); [apply IH|]; destruct (strEqb c [46;46]); [apply IH|].
  all: destruct (get f (d ++ [c])) as [e|] eqn:G.
  all: try (destruct (X _ _ G) as (e' & G' & Sm); unfold same in Sm; rewrite G', <- Sm; destruct (eKind e); auto).
  all: try (destruct rest; [|discriminate]; intros [= <-] [H|H]; [destruct d; discriminate H|congruence]).
  destruct (match rest with [] => _ | _ => _ end); auto.
Qed.
Lemma app_eq_nil_l (d : path) c : d ++ [c] <> [].
Proof. now destruct d. Qed.
Lemma resolve_put f r0 e : get f r0 = None -> forall n d t, resolve n f false d t = Ok r0 -> r0 <> [] -> ~ (t = [] /\ d = r0) ->
  isDir f d -> wf f -> resolve n (put f r0 e) false d t = Ok r0.
Proof.
  intros G0. induction n as [|n IHn]; intros d t; revert d; induction t as [|c rest IH]; intros d.
  1,3: rewrite !resolve_nil; intros [= ->] _ H; elim H; auto.
  all: ru; intros R N0 NT D W.
  all: assert (NN : forall d', isDir f d' -> forall r', ~ (r' = @nil str /\ d' = r0)) by
    (intros d' [->|(x & Hx & _)] r' [_ E]; [now elim N0|congruence]).
  all: destruct (strEqb c [] || strEqb c [46]); [apply IH; auto|]; destruct (strEqb c [46;46]).
  1,3: assert (isDir f (removelast d)) as D' by
    (destruct D as [->|(x & Hx & K)]; [now left|]; destruct (exists_last (l := d)) as (p & l & E);
       [intros ->; destruct W as (_ & _ & W); congruence|]; rewrite E in *; rewrite removelast_last; destruct W as (_ & W & _); exact (W _ _ _ Hx));
    apply IH; auto.
  all: rewrite get_put; destruct (pathEqb_spec r0 (d ++ [c])) as [E|E].
  1,3: rewrite <- E, G0 in R; destruct rest; [|discriminate]; rewrite <- E; destruct (eKind e); cbn [negb]; try reflexivity; now rewrite resolve_nil.
  all: destruct (get f (d ++ [c])) as [x|] eqn:G; [|destruct rest; congruence]; destruct (eKind x) eqn:K; auto.
  all: try (apply IH; [exact R|exact N0|apply NN; right; eauto|right; eauto|exact W]).
  destruct (match rest with [] => _ | _ => _ end); [exact R|]. apply IHn; auto.
  - apply NN. destruct (strBeginsWith _ _); [now left|exact D].
  - destruct (strBeginsWith _ _); [now left|exact D].
Qed.
Lemma resolve_dir f fl : wf f -> forall n d t r, isDir f d -> resolve n f fl d t = Ok r -> isDir f r \/ exists p c, r = p ++ [c] /\ isDir f p.
Proof.
  intros W. induction n as [|n IHn]; intros d t; revert d; induction t as [|c rest IH]; intros d r D; [rewrite resolve_nil|ru|rewrite resolve_nil|ru].
  1,3: intros [= <-]; now left.
  all: assert (D' : isDir f (removelast d)) by
    (destruct D as [->|(x & Hx & K)]; [now left|]; destruct (exists_last (l := d)) as (p & l & E);
       [intros ->; destruct W as (_ & _ & W); congruence|]; rewrite E in *; rewrite removelast_last; destruct W as (_ & W & _); exact (W _ _ _ Hx)).
  all: destruct (strEqb c [] || strEqb c [46]); [now apply IH|]; destruct (strEqb c [46;46]); [now apply IH|].
  all: destruct (get f (d ++ [c])) as [e|] eqn:G.
  all: try (destruct rest; [|discriminate]; intros [= <-]; right; eauto).
  all: destruct (eKind e) eqn:K.
  all: try (destruct rest; [|discriminate]; intros [= <-]; right; eauto).
  all: try (apply IH; right; eauto).
  all: destruct (match rest with [] => _ | _ => _ end); [intros [= <-]; right; eauto|].
  1: discriminate.
  apply IHn. destruct (strBeginsWith _ _); [now left|exact D].
Qed.
(** The same with the last link followed if it is a directory *)
Lemma resolve_follow f : forall n d t r, resolve n f false d t = Ok r -> r = [] \/ (exists e, get f r = Some e /\ eKind e = KPath) ->
  resolve n f true d t = Ok r.
Proof.
  induction n as [|n IHn]; intros d t; revert d; induction t as [|c rest IH]; intros d r; [now rewrite !resolve_nil|ru|now rewrite !resolve_nil|ru].
  all: destruct (strEqb c [] || strEqb c [46]); [apply IH|]; destruct (strEqb c [46;46]); [apply IH|].
  all: destruct (get f (d ++ [c])) as [e|] eqn:G; auto; destruct (eKind e) eqn:K; auto.
  all: destruct rest; cbn [negb]; auto.
  all: intros [= <-] [H|(x & Hx & Kx)]; [now apply app_eq_nil_l in H|congruence].
Qed.
(** More parts after what is found *)
Lemma resolve_app f fl b : b <> [] -> forall n d a r, resolve n f true d a = Ok r ->
  (exists x, resolve n f fl d (a ++ b) = Err x) \/ exists n', resolve n f fl d (a ++ b) = resolve n' f fl r b.
Proof.
  intros B. induction n as [|n IHn]; intros d a; revert d; induction a as [|c rest IH]; intros d r; [rewrite resolve_nil|ru|rewrite resolve_nil|ru].
  1,3: intros [= <-]; right; eauto.
  all: cbn [app]; ru; destruct (strEqb c [] || strEqb c [46]); [apply IH|]; destruct (strEqb c [46;46]); [apply IH|].
  all: destruct (get f (d ++ [c])) as [e|] eqn:G.
  all: assert (NB : forall (X : Type) (u v : X), match rest ++ b with [] => u | _ :: _ => v end = v) by (intros; destruct rest; [destruct b; [congruence|reflexivity]|reflexivity]).
  all: rewrite ?NB; eauto.
  all: destruct (eKind e) eqn:K; rewrite ?NB; eauto.
  all: assert (NB' : (match rest with [] => negb true | _ => false end) = false) by (now destruct rest); rewrite NB'.
  intros H. apply IHn in H. rewrite <- app_assoc in H. exact H.
Qed.
Lemma resolve_app_err f fl b : b <> [] -> forall n d a x, resolve n f true d a = Err x -> resolve n f fl d (a ++ b) = Err x.
Proof.
  intros B. induction n as [|n IHn]; intros d a; revert d; induction a as [|c rest IH]; intros d x; [rewrite resolve_nil; discriminate|ru|rewrite resolve_nil; discriminate|ru].
  all: cbn [app]; ru; destruct (strEqb c [] || strEqb c [46]); [apply IH|]; destruct (strEqb c [46;46]); [apply IH|].
  all: destruct (get f (d ++ [c])) as [e|] eqn:G.
  all: assert (NB : forall (X : Type) (u v : X), match rest ++ b with [] => u | _ :: _ => v end = v) by (intros; destruct rest; [destruct b; [congruence|reflexivity]|reflexivity]).
  all: rewrite ?NB; try (destruct rest; [discriminate|auto]; fail).
  all: destruct (eKind e) eqn:K; rewrite ?NB; auto; try (destruct rest; [discriminate|auto]; fail).
  all: assert (NB' : (match rest with [] => negb true | _ => false end) = false) by (now destruct rest); rewrite NB'.
  1: auto.
  intros H. apply IHn in H. rewrite <- app_assoc in H. exact H.
Qed.

(** * Keeping a file system well formed *)
Lemma wf_put f p c e : wf f -> isDir f p -> get f (p ++ [c]) = None -> wf (put f (p ++ [c]) e).
Proof.
  intros (A & B & C) D G. split; [now apply nd_put|]. split.
  - intros q n x. rewrite get_put. destruct (pathEqb_spec (p ++ [c]) (q ++ [n])) as [E|E].
    + intros _. apply app_inj_tail in E as [-> ->]. destruct D as [D|(d & Hd & K)]; [now left|]. right. exists d. split; [|exact K].
      rewrite get_put. destruct (pathEqb_spec (q ++ [n]) q) as [E|_]; [now apply app_ne in E|exact Hd].
    + intros H. destruct (B _ _ _ H) as [H1|(d & Hd & K)]; [now left|]. right. exists d. split; [|exact K]. rewrite get_put.
      destruct (pathEqb_spec (p ++ [c]) q) as [<-|_]; [congruence|exact Hd].
  - rewrite get_put. destruct (pathEqb_spec (p ++ [c]) []) as [E|_]; [now apply app_eq_nil_l in E|exact C].
Qed.
Lemma wf_attr f p g : (forall e, eKind (g e) = eKind e) -> wf f -> wf (attr p g f).
Proof.
  intros Hg (A & B & C). split; [now apply nd_attr|]. split.
  - intros q n x H. apply sub_attr in H as (d & Hd & _); [|exact Hg]. destruct (B _ _ _ Hd) as [H1|(y & Hy & K)]; [now left|]. right.
    rewrite get_attr. destruct (pathEqb_spec p q) as [->|]; [|eauto]. rewrite Hy. cbn. eexists. split; [reflexivity|]. now rewrite Hg.
  - rewrite get_attr. destruct (pathEqb_spec p []) as [->|]; [|exact C]. now rewrite C.
Qed.
Lemma wf_unlink f p : wf f -> (forall e, get f p = Some e -> eKind e <> KPath) -> wf (del f (pathEqb p)).
Proof.
  intros (A & B & C) H. split; [now apply nd_del|]. split.
  - intros q n x. rewrite !get_del. destruct (pathEqb p (q ++ [n])); [discriminate|]. intros G. destruct (B _ _ _ G) as [H1|(y & Hy & K)]; [now left|]. right.
    exists y. split; [|exact K]. destruct (pathEqb_spec p q) as [->|]; [|exact Hy]. elim (H _ Hy). exact K.
  - rewrite get_del. now destruct (pathEqb p []).
Qed.
Lemma ext_put f p e : get f p = None -> ext f (put f p e).
Proof.
  intros G q x H. exists x. split; [|reflexivity]. rewrite get_put. destruct (pathEqb_spec p q) as [->|]; [congruence|exact H].
Qed.
Lemma ext_attr f p g : (forall e, eKind (g e) = eKind e) -> ext f (attr p g f).
Proof.
  intros Hg q x H. rewrite get_attr. destruct (pathEqb_spec p q) as [->|]; [|exists x; split; [exact H|reflexivity]].
  rewrite H. cbn. eexists. split; [reflexivity|]. unfold same. now rewrite Hg.
Qed.
Lemma want_prefix ev ru rg m ig f rel n : forall name r base, rel <> [] -> want ev ru rg m ig f name r base (rel ++ [n]) <> None ->
  exists e, want ev ru rg m ig f name r base rel = Some e /\ eKind e = KPath.
Proof.
  induction rel as [|k rel IH]; intros name r base N; [congruence|]. cbn [app want]. destruct (get f (r ++ [k])) as [e|]; [|congruence].
  destruct (eKind e) as [c| |d|] eqn:K.
  - destruct (rel ++ [n]) eqn:E; [now apply app_eq_nil_l in E|]. cbn. congruence.
  - destruct (findPath _ _) as [p|]; [|congruence]. destruct (findLink _ _); [congruence|].
    destruct rel as [|k' rel]; cbn [isNil app].
    + intros _. eexists. split; [reflexivity|exact K].
    + intros H. apply IH; [discriminate|exact H].
  - destruct (rel ++ [n]) eqn:E; [now apply app_eq_nil_l in E|]. cbn. congruence.
  - congruence.
Qed.
Lemma wf_closed f p : wf f -> closedB p f.
Proof.
  intros (_ & W & W0) q a b. induction b as [|x b IH] using rev_ind; [auto|]. intros H. apply IH. intros G.
  destruct (get f (p ++ q ++ a :: b ++ [x])) as [e|] eqn:E; [|congruence].
  replace (p ++ q ++ a :: b ++ [x]) with ((p ++ q ++ a :: b) ++ [x]) in E by (now rewrite <- !app_assoc).
  destruct (W _ _ _ E) as [Z0|(d & Hd & _)]; [|congruence]. destruct p, q; discriminate Z0.
Qed.
Lemma wf_cleanDir ev ru rg m ig name r base f f' : wf f -> isDir f r -> goalDir ev ru rg m ig name r base f f' (Ok tt) -> wf f'.
Proof.
  intros W D ((S & ND & O) & AT & _ & EX). specialize (EX eq_refl (wf_closed f r W)). destruct W as (A & B & C). split; [auto|]. split.
  - intros p n e G. destruct (S _ _ G) as (d & Gd & _). destruct (B _ _ _ Gd) as [->|(x & Hx & K)]; [now left|]. right.
    destruct (below r p) eqn:Bp.
    + apply below_iff in Bp as [rel ->]. destruct rel as [|k rel].
      * rewrite app_nil_r in *. rewrite AT. eauto.
      * rewrite EX by discriminate. rewrite <- app_assoc in G. rewrite EX in G by discriminate.
        eapply want_prefix; [discriminate|]. rewrite G. discriminate.
    + exists x. split; [|exact K]. now rewrite O.
  - destruct r as [|k r]; [rewrite AT; exact C|]. rewrite O; [exact C|]. apply below_false. intros q E. discriminate E.
Qed.
