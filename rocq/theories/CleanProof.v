From Verif Require Import Base Str ManifestPackModel ManifestModel LinkCheckModel CleanModel CleanSpec.
Open Scope Z_scope.

(** * Paths and file systems *)
Lemma pathEqb_eq a b : pathEqb a b = true <-> a = b.
Proof.
  revert b. induction a as [|x a IH]; intros [|y b]; cbn; try (split; congruence).
  rewrite andb_true_iff, strEqb_eq, IH. split; [intros [-> ->]; reflexivity|intros [= -> ->]; auto].
Qed.
Lemma pathEqb_spec a b : reflect (a = b) (pathEqb a b).
Proof. apply iff_reflect. symmetry. apply pathEqb_eq. Qed.
Lemma pathEqb_refl a : pathEqb a a = true.
Proof. now apply pathEqb_eq. Qed.
Lemma strip_eq r p q : strip r p = Some q <-> p = r ++ q.
Proof.
  revert p. induction r as [|x r IH]; intros p; cbn; [split; congruence|].
  destruct p as [|y p]; [split; [discriminate|intros [=]]|]. destruct (strEqb_spec x y) as [->|E].
  - rewrite IH. split; [intros ->; reflexivity|intros [= ->]; reflexivity].
  - split; [discriminate|]. intros [= -> _]. congruence.
Qed.
Lemma below_iff r p : below r p = true <-> exists q, p = r ++ q.
Proof.
  unfold below. destruct (strip r p) as [q|] eqn:E.
  - apply strip_eq in E. split; eauto.
  - split; [discriminate|]. intros [q Hq]. apply strip_eq in Hq. congruence.
Qed.
Lemma below_false r p : below r p = false <-> forall q, p <> r ++ q.
Proof.
  split.
  - intros H q E. assert (below r p = true) by (apply below_iff; eauto). congruence.
  - intros H. destruct (below r p) eqn:E; [|reflexivity]. apply below_iff in E as [q Hq]. now elim (H q).
Qed.

Lemma get_in f p e : get f p = Some e -> In (p, e) f.
Proof.
  unfold get. destruct (find _ f) as [[q d]|] eqn:E; [|discriminate]. intros [= <-]. apply find_some in E as [A B].
  cbn in B. apply pathEqb_eq in B. now subst q.
Qed.
Lemma in_get f p e : NoDup (map fst f) -> In (p, e) f -> get f p = Some e.
Proof.
  unfold get. induction f as [|[q d] f IH]; intros N H; [destruct H|]. cbn in N |- *. inversion N as [|? ? N1 N2]; subst.
  destruct (pathEqb_spec q p) as [->|E].
  - destruct H as [[= ->]|H]; [reflexivity|]. elim N1. change p with (fst (p, e)). now apply in_map.
  - destruct H as [[= -> ->]|H]; [congruence|]. now apply IH.
Qed.
Lemma get_none f p : get f p = None <-> ~ In p (map fst f).
Proof.
  unfold get. induction f as [|[q d] f IH]; cbn; [split; auto|]. destruct (pathEqb_spec q p) as [->|E].
  - split; [discriminate|]. intros H. elim H. now left.
  - rewrite IH. split; [intros H [A|A]; auto|auto].
Qed.
Lemma get_filter f (g : path -> bool) p : get (filter (fun x => g (fst x)) f) p = if g p then get f p else None.
Proof.
  unfold get. induction f as [|[q d] f IH]; cbn; [now destruct (g p)|]. destruct (g q) eqn:G; cbn; destruct (pathEqb_spec q p) as [->|E].
  - now rewrite G.
  - exact IH.
  - rewrite IH, G. reflexivity.
  - exact IH.
Qed.
Lemma get_del f bad p : get (del f bad) p = if bad p then None else get f p.
Proof. unfold del. rewrite (get_filter f (fun q => negb (bad q))). now destruct (bad p). Qed.
Lemma get_put f p e q : get (put f p e) q = if pathEqb p q then Some e else get f q.
Proof.
  unfold put. change (get ((p, e) :: ?l) q) with (match (if pathEqb p q then Some (p, e) else find (fun x => pathEqb (fst x) q) l) with Some x => Some (snd x) | None => None end).
  destruct (pathEqb_spec p q) as [->|E]; [reflexivity|].
  change (get (filter (fun x => negb (pathEqb (fst x) p)) f) q = get f q). rewrite (get_filter f (fun x => negb (pathEqb x p))).
  destruct (pathEqb_spec q p); [congruence|reflexivity].
Qed.
Lemma get_attr f p g q : get (attr p g f) q = if pathEqb p q then option_map g (get f p) else get f q.
Proof.
  unfold attr. destruct (get f p) as [e|] eqn:E.
  - rewrite get_put. now destruct (pathEqb_spec p q).
  - destruct (pathEqb_spec p q) as [<-|]; [exact E|reflexivity].
Qed.
Lemma filter_fst (g : path -> bool) f : map fst (filter (fun x : path * entry => g (fst x)) f) = filter g (map fst f).
Proof. induction f as [|[q d] f IH]; cbn; [reflexivity|]. destruct (g q); cbn; now rewrite IH. Qed.
Lemma nd_del f bad : NoDup (map fst f) -> NoDup (map fst (del f bad)).
Proof. intros H. unfold del. rewrite (filter_fst (fun q => negb (bad q))). now apply NoDup_filter. Qed.
Lemma nd_put f p e : NoDup (map fst f) -> NoDup (map fst (put f p e)).
Proof.
  intros H. unfold put. cbn. rewrite (filter_fst (fun q => negb (pathEqb q p))). constructor; [|now apply NoDup_filter].
  intros F. apply filter_In in F as [_ F]. rewrite pathEqb_refl in F. discriminate.
Qed.
Lemma nd_attr f p g : NoDup (map fst f) -> NoDup (map fst (attr p g f)).
Proof. intros H. unfold attr. destruct (get f p); [now apply nd_put|exact H]. Qed.

Lemma children_in f r n e : NoDup (map fst f) -> In (n, e) (children f r) <-> get f (r ++ [n]) = Some e.
Proof.
  intros N. unfold children. rewrite sortBy_in, in_flat_map. split.
  - intros ([p d] & Hin & H). cbn in H. destruct (strip r p) as [[|k [|? ?]]|] eqn:E; cbn in H; try contradiction.
    destruct H as [[= <- <-]|[]]. apply strip_eq in E. subst p. now apply in_get.
  - intros H. apply get_in in H. exists (r ++ [n], e). split; [exact H|]. cbn.
    destruct (strip r (r ++ [n])) as [q|] eqn:E.
    + apply strip_eq in E. apply app_inv_head in E. subst q. now left.
    + assert (strip r (r ++ [n]) = Some [n]) by (now apply strip_eq). congruence.
Qed.
Lemma children_nd f r : NoDup (map fst f) -> NoDup (map fst (children f r)).
Proof.
  intros N. unfold children. eapply Permutation.Permutation_NoDup; [apply Permutation.Permutation_map, Permutation.Permutation_sym, sortBy_perm|].
  induction f as [|[p d] f IH]; cbn; [constructor|]. inversion N as [|? ? N1 N2]; subst. rewrite map_app.
  destruct (strip r p) as [[|k [|? ?]]|] eqn:E; cbn; auto. constructor; [|auto].
  intros H. apply in_map_iff in H as ([k' e'] & E1 & H). cbn in E1. subst k'. apply in_flat_map in H as ([q d'] & Hq & H). cbn in H.
  destruct (strip r q) as [[|k' [|? ?]]|] eqn:E'; cbn in H; try contradiction. destruct H as [[= -> ->]|[]].
  apply strip_eq in E, E'. subst p q. apply N1. change (r ++ [k]) with (fst (r ++ [k], e')). now apply in_map.
Qed.

(** * What is left *)
Section Want.
Variables (ev : env) (ru rg : option str) (m : cman) (ig : list str).
Definition owned (e : entry) (user group : option str) (mode : Z) : entry :=
  mkEntry (eKind e) (expectedUser ev ru user) (expectedGroup ev rg group) mode.
Definition isNil {A} (l : list A) : bool := match l with [] => true | _ => false end.
Fixpoint want (f : fs) (name : str) (r : path) (base : bool) (rel : path) : option entry :=
  match rel with
  | [] => None
  | n :: rest =>
      match get f (r ++ [n]) with
      | None => None
      | Some e =>
          match eKind e with
          | KFile _ =>
              if negb (isNil rest) then None
              else if base && strLstExists ig n then Some e
              else match findPath (cmFiles m) (slashed name n), findLink (cmLinks m) (slashed name n) with
                   | Some p, None => Some (owned e (mpUser p) (mpGroup p) (mpMode p))
                   | _, _ => None
                   end
          | KLink d =>
              if negb (isNil rest) then None
              else match findLink (cmLinks m) (slashed name n) with
                   | Some k => if strEqb (mlDestination k) d then Some (owned e (mlUser k) (mlGroup k) (eMode e)) else None
                   | None => None
                   end
          | KPath =>
              match findPath (cmPaths m) (slashed name n), findLink (cmLinks m) (slashed name n) with
              | Some p, None => if isNil rest then Some (owned e (mpUser p) (mpGroup p) (mpMode p)) else want f (slashed name n) (r ++ [n]) false rest
              | _, _ => None
              end
          | KSpecial => None
          end
      end
  end.
Lemma want_ext f g rel name r base : (forall q, (exists n s, rel = n :: s /\ below (r ++ [n]) q = true) -> get f q = get g q) ->
  want f name r base rel = want g name r base rel.
Proof.
  revert name r base. induction rel as [|n rest IH]; intros name r base H; [reflexivity|]. cbn [want].
  rewrite (H (r ++ [n])). 2:{ exists n, rest. split; [reflexivity|]. apply below_iff. exists []. now rewrite app_nil_r. }
  destruct (get g (r ++ [n])) as [e|]; [|reflexivity]. destruct (eKind e); try reflexivity.
  rewrite (IH (slashed name n) (r ++ [n]) false); [reflexivity|]. intros q (n' & s & -> & Hb). apply H. exists n, (n' :: s). split; [reflexivity|].
  apply below_iff in Hb as [t ->]. apply below_iff. exists (n' :: t). now rewrite <- app_assoc.
Qed.
End Want.

(** Nothing is added, kinds stay *)
Definition sub (g f : fs) : Prop := forall q e, get g q = Some e -> exists d, get f q = Some d /\ same d e.
Lemma sub_refl f : sub f f.
Proof. intros q e H. exists e. split; [exact H|reflexivity]. Qed.
Lemma sub_trans a b c : sub a b -> sub b c -> sub a c.
Proof. intros A B q e H. destruct (A q e H) as (d & Hd & S1). destruct (B q d Hd) as (x & Hx & S2). exists x. split; [exact Hx|]. unfold same in *. congruence. Qed.
Lemma sub_del f bad : sub (del f bad) f.
Proof. intros q e. rewrite get_del. destruct (bad q); [discriminate|]. intros H. exists e. split; [exact H|reflexivity]. Qed.
Lemma sub_attr f p g : (forall e, eKind (g e) = eKind e) -> sub (attr p g f) f.
Proof.
  intros H q e. rewrite get_attr. destruct (pathEqb_spec p q) as [->|]; [|intros E; exists e; split; [exact E|reflexivity]].
  destruct (get f q) as [d|]; [|discriminate]. cbn. intros [= <-]. exists d. split; [reflexivity|]. unfold same. now rewrite H.
Qed.
(** Nothing is in something that is not a directory *)
Definition tree (f : fs) : Prop := forall p n s e d, get f (p ++ n :: s) = Some e -> get f p = Some d -> eKind d = KPath.
Lemma wf_tree f : wf f -> tree f.
Proof.
  intros (_ & H & H0) p n s. revert n. induction s as [|n' s IH] using rev_ind; intros n e d E D.
  - destruct (H _ _ _ E) as [->|(x & Hx & K)]; [congruence|]. rewrite D in Hx. injection Hx as <-. exact K.
  - change (p ++ n :: s ++ [n']) with (p ++ (n :: s) ++ [n']) in E. rewrite app_assoc in E. destruct (H _ _ _ E) as [X|(x & Hx & K)].
    + destruct p; discriminate X.
    + exact (IH n x d Hx D).
Qed.
Lemma tree_sub g f : sub g f -> tree f -> tree g.
Proof.
  intros S T p n s e d E D. destruct (S _ _ E) as (e' & E' & _). destruct (S _ _ D) as (d' & D' & K). rewrite <- K. eapply T; eauto.
Qed.
