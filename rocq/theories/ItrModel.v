(** Iteration over the content of storage.  Models src/storage/iterator.c (storageItrPathAdd, storageItrNew, storageItrMore, storageItrNext),
    storageList() (src/storage/storage.c:420-455) and the use of the prefix of an expression by the object stores
    (src/storage/s3/storage.c:773-788 and the same code for Azure and GCS).

    The driver is a function from a subpath to its entries, if the path exists.  Simplified: of the information on an entry there are the name, whether it
    is a path, and the rest as one value; listIdx is the part of the list from there on; memory contexts are left out. *)
From Verif Require Import Base Str RegModel.
Open Scope Z_scope.

Record info := mkInfo { iName : str; iPath : bool; iData : Z }.
Inductive sortOrder := OrderNone | OrderAsc | OrderDesc.

(** iterator.c:37-43 StorageIteratorInfo; pathSub is NULL at the top *)
Record frame := mkFrame { fSub : option str; fList : list info; fSkip : bool }.
(** iterator.c:15-33 StorageIterator: the stack, top first, and the info to be returned by next, if there is one *)
Record itr := mkItr { itStack : list frame; itNext : option info }.

(** storage/list.c storageLstSort() *)
Definition storageLstSort (o : sortOrder) (l : list info) : list info :=
  match o with
  | OrderNone => l
  | OrderAsc => sortBy iName strLeb l
  | OrderDesc => sortBy iName (fun a b => strLeb b a) l
  end.

Section Itr.
  (** The driver's list function, and the parameters of the iterator *)
  Variables (ls : option str -> option (list info)) (recurse : bool) (order : sortOrder) (regExp : option re).

  (** iterator.c:188-193 the name of an entry below the path of the iterator *)
  Definition fullName (sub : option str) (n : str) : str := match sub with None => n | Some p => p ++ 47 :: n end.
  Definition matched (n : str) : bool := match regExp with None => true | Some r => regExpMatch r n end.

  (** iterator.c:54-105 storageItrPathAdd: does the path exist, and the frame to be added if it has content *)
  Definition storageItrPathAdd (sub : option str) : bool * option frame :=
    match ls sub with
    | None => (false, None)
    | Some [] => (true, None)
    | Some l => (true, Some (mkFrame sub (storageLstSort order l) false))
    end.

  (** iterator.c:108-165 storageItrNew; EFileMissing is PathMissingError *)
  Definition storageItrNew (errorOnMissing nullOnMissing : bool) : res (option itr) :=
    let '(ex, f) := storageItrPathAdd None in
    if negb ex && errorOnMissing then Err EFileMissing
    else if negb ex && nullOnMissing then Ok None
    else Ok (Some (mkItr (match f with Some f => [f] | None => [] end) None)).

  (** iterator.c:181-243: one round of the search of the stack, an entry if one is to be returned.  At the end of a list it is removed. *)
  Definition withNew (new : option frame) (st : list frame) : list frame := match new with Some f => f :: st | None => st end.
  Definition step (f : frame) (rest : list frame) : list frame * option info :=
    match fList f with
    | [] => (rest, None)
    | i :: t =>
      let name := fullName (fSub f) (iName i) in
      let next := mkInfo name (iPath i) (iData i) in
      let new := if iPath i && recurse && negb (fSkip f) then snd (storageItrPathAdd (Some name)) else None in
      let content := match new with Some _ => true | None => false end in
      if negb (matched name) then (withNew new (mkFrame (fSub f) t false :: rest), None)
      else if content && (match order with OrderDesc => true | _ => false end) then (withNew new (mkFrame (fSub f) (i :: t) true :: rest), None)
      else (withNew new (mkFrame (fSub f) t false :: rest), Some next)
    end.
  Fixpoint search (fuel : nat) (st : list frame) : option (list frame * option info) :=
    match fuel with
    | O => None
    | S fuel' =>
      match st with
      | [] => Some ([], None)
      | f :: rest => match step f rest with (st', Some i) => Some (st', Some i) | (st', None) => search fuel' st' end
      end
    end.
  (** iterator.c:168-246 storageItrMore *)
  Definition storageItrMore (fuel : nat) (t : itr) : option (bool * itr) :=
    match itNext t with
    | Some _ => Some (true, t)
    | None =>
      match search fuel (itStack t) with
      | None => None
      | Some (st, Some i) => Some (true, mkItr st (Some i))
      | Some (st, None) => Some (false, mkItr st None)
      end
    end.
  (** iterator.c:249-262 storageItrNext *)
  Definition storageItrNext (t : itr) : res (info * itr) :=
    match itNext t with Some i => Ok (i, mkItr (itStack t) None) | None => Err EAssert end.

  (** The loop all users have: while (storageItrMore()) storageItrNext().  [n] bounds the rounds, [fuel] the search in each. *)
  Fixpoint drain (n fuel : nat) (t : itr) : option (res (list info)) :=
    match n with
    | O => None
    | S n' =>
      match storageItrMore fuel t with
      | None => None
      | Some (false, _) => Some (Ok [])
      | Some (true, t') =>
        match storageItrNext t' with
        | Ok (i, t'') => option_map (fun r => let* l := r in Ok (i :: l)) (drain n' fuel t'')
        | Err e => Some (Err e)
        | UB => Some UB
        end
      end
    end.
End Itr.

(** storage.c:420-455 storageList: names of the entries of a path; NULL if missing and nullOnMissing *)
Definition storageList (ls : option str -> option (list info)) (regExp : option re) (errorOnMissing nullOnMissing : bool) (n fuel : nat) : option (res (option (list str))) :=
  match storageItrNew ls OrderNone errorOnMissing nullOnMissing with
  | Err e => Some (Err e)
  | UB => Some UB
  | Ok None => Some (Ok None)
  | Ok (Some t) => option_map (fun r => let* l := r in Ok (Some (map iName l))) (drain ls false OrderNone regExp n fuel t)
  end.

(** s3/storage.c:773-788: an object store lists the entries whose name begins with the prefix of the expression, in every path *)
Definition prefixDriver (expression : option str) (ls : option str -> option (list info)) (sub : option str) : option (list info) :=
  match expression with
  | None => ls sub
  | Some e => match regExpPrefix e with
              | None => ls sub
              | Some p => option_map (filter (fun i => strBeginsWith (iName i) p)) (ls sub)
              end
  end.
