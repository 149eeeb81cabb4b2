(** The iterator gives what is in the tree. *)
From Coq Require Import Permutation Sorted.
From Verif Require Import Base Str RegModel ItrModel ItrSpec.
Open Scope Z_scope.

Lemma node_ind' (P : node -> Prop) :
  (forall i, P (NFile i)) -> (forall i, P (NPath i None)) -> (forall i l, Forall P l -> P (NPath i (Some l))) -> forall n, P n.
Proof.
  intros HF HN HP. fix IH 1. intros [i | i [l |]]; [apply HF | apply HP | apply HN].
  induction l as [| x r IHr]; constructor; [apply IH | exact IHr].
Qed.

Lemma holds_all ls p l :
  (fix all (l : list node) : Prop := match l with [] => True | x :: r => holds ls p x /\ all r end) l <-> Forall (holds ls p) l.
Proof.
  induction l as [| x r IH]; [split; auto|]. rewrite IH. split; [intros [H1 H2]; auto | intros H; inversion H; auto].
Qed.
Lemma proper_all l :
  (fix all (l : list node) : Prop := match l with [] => True | x :: r => proper x /\ all r end) l <-> Forall proper l.
Proof.
  induction l as [| x r IH]; [split; auto|]. rewrite IH. split; [intros [H1 H2]; auto | intros H; inversion H; auto].
Qed.

Section Run.
  Variables (ls : option str -> option (list info)) (recurse : bool) (order : sortOrder) (regExp : option re).

  (** The tree in the order the iterator sees it *)
  Definition sortN (l : list node) : list node :=
    match order with
    | OrderNone => l
    | OrderAsc => sortBy nameOf strLeb l
    | OrderDesc => sortBy nameOf (fun a b => strLeb b a) l
    end.
  Fixpoint sortTree (n : node) : node :=
    match n with
    | NFile i => NFile i
    | NPath i None => NPath i None
    | NPath i (Some l) => NPath i (Some (sortN (map sortTree l)))
    end.
  Lemma infoOf_sortTree n : infoOf (sortTree n) = infoOf n.
  Proof. destruct n as [i | i [l |]]; reflexivity. Qed.
  Lemma map_insert leb x l : map infoOf (insertBy nameOf leb x l) = insertBy iName leb (infoOf x) (map infoOf l).
  Proof.
    induction l as [| y r IH]; [reflexivity|]. cbn [insertBy map]. unfold nameOf at 1 2.
    destruct (leb (iName (infoOf x)) (iName (infoOf y))); [reflexivity|]. cbn [map]. now rewrite IH.
  Qed.
  Lemma map_sort leb l : map infoOf (sortBy nameOf leb l) = sortBy iName leb (map infoOf l).
  Proof. induction l as [| x r IH]; [reflexivity|]. cbn [sortBy map]. now rewrite map_insert, IH. Qed.
  Lemma sortN_map l : map infoOf (sortN l) = storageLstSort order (map infoOf l).
  Proof. unfold sortN, storageLstSort. destruct order; [reflexivity | apply map_sort | apply map_sort]. Qed.
  Lemma sortN_perm l : Permutation (sortN l) l.
  Proof. unfold sortN. destruct order; [reflexivity | apply sortBy_perm | apply sortBy_perm]. Qed.

  (** What the driver gives for the sorted tree *)
  Fixpoint good (sub : option str) (n : node) : Prop :=
    match n with
    | NFile i => iPath i = false
    | NPath i None => iPath i = true /\ ls (Some (fullName sub (iName i))) = None
    | NPath i (Some l) =>
      let p := Some (fullName sub (iName i)) in
      iPath i = true /\ option_map (storageLstSort order) (ls p) = Some (map infoOf l) /\
      (fix all (l : list node) : Prop := match l with [] => True | x :: r => good p x /\ all r end) l
    end.
  Lemma good_all p l :
    (fix all (l : list node) : Prop := match l with [] => True | x :: r => good p x /\ all r end) l <-> Forall (good p) l.
  Proof.
    induction l as [| x r IH]; [split; auto|]. rewrite IH. split; [intros [H1 H2]; auto | intros H; inversion H; auto].
  Qed.
  Lemma holds_good n : forall sub, holds ls sub n -> good sub (sortTree n).
  Proof.
    induction n as [i | i | i l IH] using node_ind'; intros sub; cbn [holds sortTree good].
    - auto.
    - intros (H1 & H2 & _). auto.
    - intros (H1 & H2 & H3). rewrite holds_all in H3. rewrite good_all. split; [exact H1|]. split.
      + rewrite H2. cbn [option_map]. rewrite sortN_map, map_map. do 2 f_equal. apply map_ext. intros a. now rewrite infoOf_sortTree.
      + rewrite Forall_forall in *. intros x Hx. apply (Permutation_in _ (sortN_perm _)), in_map_iff in Hx. destruct Hx as (y & <- & Hy).
        apply IH; auto.
  Qed.

  Definition self (sub : option str) (n : node) : list info :=
    filter (fun x => matched regExp (iName x)) [mkInfo (fullName sub (nameOf n)) (iPath (infoOf n)) (iData (infoOf n))].
  Fixpoint outs (sub : option str) (n : node) : list info :=
    let content :=
      match n with
      | NPath i (Some l) => if recurse then flat_map (outs (Some (fullName sub (iName i)))) l else []
      | _ => []
      end in
    match order with OrderDesc => content ++ self sub n | _ => self sub n ++ content end.

  (** The outputs to come from a frame with nodes [ns], and from the stack *)
  Definition pendF (f : frame) (ns : list node) : list info :=
    match fSkip f, ns with
    | true, n :: r => self (fSub f) n ++ flat_map (outs (fSub f)) r
    | _, _ => flat_map (outs (fSub f)) ns
    end.
  Fixpoint pend (st : list frame) (nss : list (list node)) : list info :=
    match st, nss with f :: st', ns :: nss' => pendF f ns ++ pend st' nss' | _, _ => [] end.
  Definition fr (f : frame) (ns : list node) : Prop := fList f = map infoOf ns /\ Forall (good (fSub f)) ns.

  Fixpoint weight (n : node) : nat := match n with NPath _ (Some l) => 3 + list_sum (map weight l) | _ => 3 end.
  Definition wtF (f : frame) (ns : list node) : nat :=
    1 + match fSkip f, ns with true, n :: r => 1 + list_sum (map weight r) | _, _ => list_sum (map weight ns) end.
  Fixpoint wt (st : list frame) (nss : list (list node)) : nat :=
    match st, nss with f :: st', ns :: nss' => wtF f ns + wt st' nss' | _, _ => 0 end.

  Lemma weight_ge n : (3 <= weight n)%nat.
  Proof. destruct n as [i | i [l |]]; cbn [weight]; lia. Qed.

  Lemma good_path sub n : good sub n -> iPath (infoOf n) = match n with NPath _ _ => true | _ => false end.
  Proof. destruct n as [i | i [l |]]; cbn [good infoOf]; intuition. Qed.

  (** Adding a path below an entry *)
  Lemma add_some sub i l : good sub (NPath i (Some l)) ->
    match snd (storageItrPathAdd ls order (Some (fullName sub (iName i)))) with
    | None => l = []
    | Some f => l <> [] /\ fr f l /\ fSub f = Some (fullName sub (iName i)) /\ fSkip f = false
    end.
  Proof.
    cbn [good]. rewrite good_all. intros (H1 & H2 & H3). unfold storageItrPathAdd.
    destruct (ls (Some (fullName sub (iName i)))) as [[| a r] |]; cbn [option_map snd] in *; [| | discriminate].
    - injection H2 as H2. destruct l; [reflexivity|]. exfalso. destruct order; discriminate.
    - injection H2 as H2. split; [| split; [split; [exact H2 | exact H3] | split; reflexivity]].
      intros ->. apply (f_equal (@length _)) in H2. revert H2.
      assert (HP : forall l', length (storageLstSort order l') = length l').
      { intros l'. unfold storageLstSort. destruct order; [reflexivity | |]; apply Permutation_length, sortBy_perm. }
      rewrite HP. discriminate.
  Qed.

  Lemma step_ok f rest ns nss st' o :
    fr f ns -> Forall2 fr rest nss -> step ls recurse order regExp f rest = (st', o) ->
    exists nss', Forall2 fr st' nss' /\
      pend (f :: rest) (ns :: nss) = match o with Some i => [i] | None => [] end ++ pend st' nss' /\
      (wt st' nss' < wt (f :: rest) (ns :: nss))%nat.
  Proof.
    intros [HL HG] HR. unfold step. rewrite HL. destruct ns as [| n r]; cbn [map].
    { intros E. injection E as <- <-. exists nss. split; [exact HR|]. cbn [pend wt]. unfold pendF, wtF. destruct (fSkip f); cbn [flat_map app]; split; auto; cbn; lia. }
    inversion HG as [| ? ? Hn Hr]; subst.
    set (name := fullName (fSub f) (iName (infoOf n))).
    set (new := if iPath (infoOf n) && recurse && negb (fSkip f) then snd (storageItrPathAdd ls order (Some name)) else None).
    pose proof (weight_ge n) as HW.
    (* the new frame and its nodes *)
    assert (HN : exists ch, (match new with
                             | None => ch = []
                             | Some g => ch <> [] /\ fr g ch /\ fSub g = Some name /\ fSkip g = false /\ fSkip f = false /\ weight n = (3 + list_sum (map weight ch))%nat
                             end) /\
       (fSkip f = false -> outs (fSub f) n = match order with
                                              | OrderDesc => flat_map (outs (Some name)) ch ++ self (fSub f) n
                                              | _ => self (fSub f) n ++ flat_map (outs (Some name)) ch end)).
    { unfold new. rewrite (good_path _ _ Hn). destruct n as [i | i [l |]].
      - exists []. split; [reflexivity|]. intros _. reflexivity.
      - destruct recurse eqn:ER; [| exists []; split; [reflexivity|]; intros _; cbn [outs]; rewrite ER; reflexivity].
        destruct (fSkip f) eqn:ES; [exists []; split; [reflexivity | discriminate]|]. cbn [andb negb].
        exists l. pose proof (add_some _ _ _ Hn) as HA. cbn [infoOf] in name. fold name in HA.
        split; [| intros _; cbn [outs]; rewrite ER; reflexivity].
        destruct (snd (storageItrPathAdd ls order (Some name))) as [g |]; [| exact HA].
        destruct HA as (A1 & A2 & A3 & A4). repeat split; auto; apply A2.
      - exists []. assert (E : snd (storageItrPathAdd ls order (Some name)) = None).
        { destruct Hn as [_ Hn]. unfold storageItrPathAdd, name. cbn [infoOf]. rewrite Hn. reflexivity. }
        rewrite E. split; [destruct (true && recurse && negb (fSkip f)); reflexivity|]. intros _. reflexivity. }
    destruct HN as (ch & HN & HO).
    assert (Hfr : fr (mkFrame (fSub f) (map infoOf r) false) r) by (split; [reflexivity | exact Hr]).
    assert (Hfr2 : fr (mkFrame (fSub f) (infoOf n :: map infoOf r) true) (n :: r)) by (split; [reflexivity | exact HG]).
    assert (Hself : self (fSub f) n = if matched regExp name then [mkInfo name (iPath (infoOf n)) (iData (infoOf n))] else []) by reflexivity.
    destruct (matched regExp name) eqn:EM; cbn [negb].
    - destruct new as [g |]; cbn [andb].
      + destruct HN as (N1 & N2 & N3 & N4 & N5 & N6). specialize (HO N5).
        destruct order eqn:EO; intros E; injection E as <- <-; cbn [withNew].
        * exists (ch :: r :: nss). split; [auto|]. cbn [pend wt]. unfold pendF, wtF. rewrite N5, N4, N3. cbn [fSub fSkip flat_map]. rewrite HO, Hself. cbn [app map list_sum fold_right].
          split; [rewrite <- !app_assoc; reflexivity|]. fold list_sum. rewrite N6. unfold list_sum. cbn [fold_right map]. lia.
        * exists (ch :: r :: nss). split; [auto|]. cbn [pend wt]. unfold pendF, wtF. rewrite N5, N4, N3. cbn [fSub fSkip flat_map]. rewrite HO, Hself. cbn [app map list_sum fold_right].
          split; [rewrite <- !app_assoc; reflexivity|]. fold list_sum. rewrite N6. unfold list_sum. cbn [fold_right map]. lia.
        * exists (ch :: (n :: r) :: nss). split; [auto|]. cbn [pend wt]. unfold pendF, wtF. rewrite N5, N4, N3. cbn [fSub fSkip flat_map]. rewrite HO. cbn [app map list_sum fold_right].
          split; [rewrite <- !app_assoc; reflexivity|]. fold list_sum. rewrite N6. unfold list_sum. cbn [fold_right map]. lia.
      + subst ch. intros E. injection E as <- <-. exists (r :: nss). cbn [withNew]. split; [auto|]. cbn [pend wt]. unfold pendF, wtF. cbn [fSub fSkip].
        unfold list_sum. destruct (fSkip f) eqn:ES; cbn [flat_map map fold_right].
        * rewrite Hself. split; [reflexivity | lia].
        * rewrite HO, Hself by reflexivity. cbn [flat_map]. split; [destruct order; reflexivity | lia].
    - intros E. injection E as <- <-. cbn [app]. destruct new as [g |]; cbn [withNew].
      + destruct HN as (N1 & N2 & N3 & N4 & N5 & N6). specialize (HO N5). exists (ch :: r :: nss). split; [auto|]. cbn [pend wt]. unfold pendF, wtF. rewrite N5, N4, N3. cbn [fSub fSkip flat_map].
        rewrite HO, Hself. unfold list_sum in *. cbn [map fold_right]. split; [destruct order; cbn [app]; rewrite ?app_nil_r, <- ?app_assoc; reflexivity | lia].
      + subst ch. exists (r :: nss). split; [auto|]. cbn [pend wt]. unfold pendF, wtF. cbn [fSub fSkip]. unfold list_sum.
        destruct (fSkip f) eqn:ES; cbn [flat_map map fold_right].
        * rewrite Hself. split; [reflexivity | lia].
        * rewrite HO, Hself by reflexivity. cbn [flat_map]. split; [destruct order; reflexivity | lia].
  Qed.

  Lemma search_ok fuel : forall st nss, Forall2 fr st nss -> (wt st nss < fuel)%nat ->
    exists st' o nss', search ls recurse order regExp fuel st = Some (st', o) /\ Forall2 fr st' nss' /\
      match o with
      | None => pend st nss = []
      | Some i => pend st nss = i :: pend st' nss' /\ (wt st' nss' < wt st nss)%nat
      end.
  Proof.
    induction fuel as [| fuel IH]; intros st nss HF HW; [lia|]. cbn [search]. destruct HF as [| f ns rest nss Hf HF].
    - exists [], None, []. auto.
    - destruct (step ls recurse order regExp f rest) as [st' o] eqn:ES. destruct (step_ok _ _ _ _ _ _ Hf HF ES) as (nss' & H1 & H2 & H3).
      destruct o as [i |].
      + exists st', (Some i), nss'. auto.
      + destruct (IH st' nss' H1) as (st2 & o & nss2 & A1 & A2 & A3); [lia|]. exists st2, o, nss2. split; [exact A1|]. split; [exact A2|].
        rewrite H2. cbn [app]. destruct o; [| exact A3]. split; [apply A3 | lia].
  Qed.
  Lemma drain_ok n : forall st nss fuel, Forall2 fr st nss -> (wt st nss < n)%nat -> (wt st nss < fuel)%nat ->
    drain ls recurse order regExp n fuel (mkItr st None) = Some (Ok (pend st nss)).
  Proof.
    induction n as [| n IH]; intros st nss fuel HF HW HN; [lia|]. cbn [drain storageItrMore itNext itStack].
    destruct (search_ok fuel st nss HF HN) as (st' & o & nss' & H1 & H2 & H3). rewrite H1. destruct o as [i |].
    - destruct H3 as [H3 H4]. cbn [storageItrNext itNext itStack]. rewrite (IH st' nss' fuel H2) by lia. cbn [option_map bind]. now rewrite H3.
    - now rewrite H3.
  Qed.

  Lemma run_gives l : holdsAll ls None l -> gives ls recurse order regExp (flat_map (outs None) (sortN (map sortTree l))).
  Proof.
    intros [HL HN]. set (s := sortN (map sortTree l)).
    assert (HG : Forall (good None) s).
    { apply Forall_forall. intros x Hx. apply (Permutation_in _ (sortN_perm _)), in_map_iff in Hx. destruct Hx as (y & <- & Hy).
      apply holds_good, HN, Hy. }
    assert (HS : storageLstSort order (map infoOf l) = map infoOf s).
    { unfold s. rewrite sortN_map, map_map. f_equal. apply map_ext. intros a. now rewrite infoOf_sortTree. }
    unfold gives, storageItrNew, storageItrPathAdd. rewrite HL. destruct l as [| a r].
    - eexists. split; [reflexivity|]. exists 1%nat. intros n fuel H1 H2.
      rewrite (drain_ok n [] [] fuel); [| constructor | cbn; lia | cbn; lia]. unfold s, sortN. destruct order; reflexivity.
    - cbn [map]. eexists. split; [reflexivity|]. exists (S (wt [mkFrame None (map infoOf s) false] [s])). intros n fuel H1 H2.
      change (infoOf a :: map infoOf r) with (map infoOf (a :: r)). rewrite HS.
      rewrite (drain_ok n [mkFrame None (map infoOf s) false] [s] fuel); [| | lia | lia].
      + cbn [pend]. unfold pendF. cbn [fSkip fSub]. now rewrite app_nil_r.
      + constructor; [split; [reflexivity | exact HG] | constructor].
  Qed.

  (** The outputs and the entries of the tree *)
  Lemma flat_map_perm {A B} (f g : A -> list B) l : (forall x, In x l -> Permutation (f x) (g x)) -> Permutation (flat_map f l) (flat_map g l).
  Proof.
    induction l as [| a r IH]; intros H; [constructor|]. cbn [flat_map]. apply Permutation_app; [apply H; now left | apply IH; intros; apply H; now right].
  Qed.
  Lemma flat_map_filter {A B} (f : A -> list B) p l : filter p (flat_map f l) = flat_map (fun x => filter p (f x)) l.
  Proof. induction l as [| a r IH]; [reflexivity|]. cbn [flat_map]. now rewrite filter_app, IH. Qed.
  Lemma flat_map_map {A B C} (f : B -> list C) (g : A -> B) l : flat_map f (map g l) = flat_map (fun x => f (g x)) l.
  Proof. induction l as [| a r IH]; [reflexivity|]. cbn [flat_map map]. now rewrite IH. Qed.

  Definition keep (x : info) : bool := matched regExp (iName x).
  Lemma outs_perm n : forall sub, Permutation (outs sub (sortTree n)) (filter keep (entriesOf recurse sub n)).
  Proof.
    induction n as [i | i | i l IH] using node_ind'; intros sub.
    - cbn [sortTree outs entriesOf]. unfold self. fold keep. destruct order; rewrite ?app_nil_r; cbn [app]; reflexivity.
    - cbn [sortTree outs entriesOf]. unfold self. fold keep. destruct order; rewrite ?app_nil_r; cbn [app]; reflexivity.
    - cbn [sortTree outs entriesOf]. unfold self. fold keep.
      set (c := if recurse then flat_map (outs (Some (fullName sub (iName i)))) (sortN (map sortTree l)) else []).
      assert (HC : Permutation c (filter keep (if recurse then flat_map (entriesOf recurse (Some (fullName sub (iName i)))) l else []))).
      { unfold c. destruct recurse eqn:ER; [| constructor]. rewrite flat_map_filter.
        etransitivity; [apply Permutation_flat_map, sortN_perm|]. rewrite flat_map_map. apply flat_map_perm. intros x Hx. rewrite Forall_forall in IH. apply IH, Hx. }
      match goal with |- Permutation _ (filter keep (?x :: ?y)) => change (filter keep (x :: y)) with (filter keep ([x] ++ y)) end.
      rewrite filter_app. destruct order; [| | etransitivity; [apply Permutation_app_comm|]]; (apply Permutation_app; [reflexivity | exact HC]).
  Qed.
  Lemma run_perm l : Permutation (flat_map (outs None) (sortN (map sortTree l))) (filter keep (entries recurse l)).
  Proof.
    unfold entries. rewrite flat_map_filter. etransitivity; [apply Permutation_flat_map, sortN_perm|]. rewrite flat_map_map.
    apply flat_map_perm. intros x _. apply outs_perm.
  Qed.
End Run.
