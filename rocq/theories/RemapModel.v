(** Remapping of the manifest in a restore.  Models src/command/restore/remap.c.inc and the functions of src/info/manifest/store.c.inc it uses.  A map
    option that is not set is an empty map.  Log messages are left out. *)
From Verif Require Import Base Str NumModel ManifestPackModel ManifestModel LinkCheckModel CleanModel.
Open Scope Z_scope.

(** pg-path, tablespace-map, tablespace-map-all, link-map and link-all *)
Record ropts := mkRopts { roPg : str; roTablespace : list (str * str); roAll : option str; roLink : list (str * str); roLinkAll : bool }.

(** keyValue.c kvGet() *)
Definition kvGet (l : list (str * str)) (k : str) : option str := option_map snd (find (fun p => strEqb (fst p) k) l).
(** list.c lstFind() and an update of what it finds, lstRemove() *)
Fixpoint updFirst {A} (p : A -> bool) (f : A -> A) (l : list A) : option (list A) :=
  match l with [] => None | a :: r => if p a then Some (f a :: r) else option_map (cons a) (updFirst p f r) end.
Fixpoint removeFirst {A} (p : A -> bool) (l : list A) : option (list A) :=
  match l with [] => None | a :: r => if p a then Some r else option_map (cons a) (removeFirst p r) end.
Definition withTargets (m : cman) (ts : list mtarget) : cman := mkCman ts (cmPaths m) (cmLinks m) (cmFiles m).
Definition withLinks (m : cman) (ls : list mlink) : cman := mkCman (cmTargets m) (cmPaths m) ls (cmFiles m).
(** store.c.inc:780-809; the ASSERT() that a file stays a file is left out *)
Definition setTarget (path : str) (file : option str) (t : mtarget) : mtarget :=
  mkMtarget (mtName t) (mtIsPath t) path file (mtTablespaceId t) (mtTablespaceName t).
Definition manifestTargetUpdate (m : cman) (name path : str) (file : option str) : res cman :=
  match updFirst (fun t => strEqb (mtName t) name) (setTarget path file) (cmTargets m) with
  | Some ts => Ok (withTargets m ts)
  | None => Err EAssert
  end.
(** store.c.inc:595-618 *)
Definition setLink (destination : str) (k : mlink) : mlink := mkMlink (mlName k) destination (mlUser k) (mlGroup k).
Definition manifestLinkUpdate (m : cman) (name destination : str) : res cman :=
  match updFirst (fun k => strEqb (mlName k) name) (setLink destination) (cmLinks m) with
  | Some ls => Ok (withLinks m ls)
  | None => Err EAssert
  end.
(** store.c.inc:529-556, 674-704 *)
Definition manifestLinkAdd (m : cman) (k : mlink) : cman := withLinks m (cmLinks m ++ [k]).
Definition manifestTargetAdd (m : cman) (t : mtarget) : cman := withTargets m (cmTargets m ++ [t]).
(** store.c.inc:578-592, 763-777 *)
Definition manifestLinkRemove (m : cman) (name : str) : res cman :=
  match removeFirst (fun k => strEqb (mlName k) name) (cmLinks m) with Some ls => Ok (withLinks m ls) | None => Err EAssert end.
Definition manifestTargetRemove (m : cman) (name : str) : res cman :=
  match removeFirst (fun t => strEqb (mtName t) name) (cmTargets m) with Some ts => Ok (withTargets m ts) | None => Err EAssert end.

(** remap.c.inc:16-24 *)
Definition mapBase (o : ropts) (m : cman) : res cman :=
  let* b := manifestTargetFind (cmTargets m) pgData in
  if strEqb (mtPath b) (roPg o) then Ok m else manifestTargetUpdate m (mtName b) (roPg o) None.

(** remap.c.inc:39-77: the path for a tablespace.  EOther is TablespaceMapError; strZ(NULL) is undefined. *)
Definition isSome {A} (o : option A) : bool := match o with Some _ => true | None => false end.
Definition byName (o : ropts) (t : mtarget) : option str := match mtTablespaceName t with Some n => kvGet (roTablespace o) n | None => None end.
Definition byId (o : ropts) (t : mtarget) : option str := kvGet (roTablespace o) (cvtUIntToZ (mtTablespaceId t)).
Definition tablespacePath (o : ropts) (t : mtarget) : res (option str) :=
  let* path :=
    match byName o t, byId o t with
    | Some a, Some b => if strEqb a b then Ok (Some a) else Err EOther
    | Some a, None => Ok (Some a)
    | None, b => Ok b
    end in
  match path, roAll o with
  | None, Some all => match mtTablespaceName t with Some n => Ok (Some (slashed all n)) | None => UB end
  | _, _ => Ok path
  end.
(** remap.c.inc:47-48, 54-55: the keys of the map that were used *)
Definition remapped (o : ropts) (t : mtarget) : list str :=
  (if isSome (byName o t) then match mtTablespaceName t with Some n => [n] | None => [] end else []) ++
  (if isSome (byId o t) then [cvtUIntToZ (mtTablespaceId t)] else []).
(** remap.c.inc:33-88.  The name and the tablespace of a target, which are all that is read, are not changed by the updates, so the loop is over the list
    before. *)
Fixpoint mapTablespaces (o : ropts) (todo : list mtarget) (m : cman) (done : list str) : res (cman * list str) :=
  match todo with
  | [] => Ok (m, done)
  | t :: r =>
      if negb (mtTablespaceId t =? 0) then
        let* path := tablespacePath o t in
        let* m :=
          match path with
          | None => Ok m
          | Some p => let* m := manifestTargetUpdate m (mtName t) p None in manifestLinkUpdate m (slashed pgData (mtName t)) p
          end in
        mapTablespaces o r m (done ++ remapped o t)
      else mapTablespaces o r m done
  end.
(** remap.c.inc:26-103 *)
Definition mapTablespace (o : ropts) (m : cman) : res cman :=
  let* r := mapTablespaces o (cmTargets m) m [] in
  let (m, done) := r in
  if forallb (fun k => strLstExists done (fst k)) (roTablespace o) then Ok m else Err EOther.

(** remap.c.inc:119-214: one link.  EOptionInvalidValue is LinkMapError. *)
Definition mapLink (o : ropts) (m : cman) (link : str) : res cman :=
  match kvGet (roLink o) link with
  | None => UB
  | Some linkPath =>
      let name := slashed pgData link in
      let* r :=
        match find (fun t => strEqb (mtName t) name) (cmTargets m) with
        | Some t => Ok (false, m, setTarget linkPath (mtFile t) t)
        | None =>
            let pathExists := isSome (findPath (cmPaths m) name) in
            let fileExists := isSome (findPath (cmFiles m) name) in
            if pathExists && fileExists then Err EFormat
            else if negb fileExists && negb pathExists then Err EOptionInvalidValue
            else
              match findPath (cmPaths m) pgData with
              | None => Err EAssert
              | Some b =>
                  Ok (true, manifestLinkAdd m (mkMlink name linkPath (mpUser b) (mpGroup b)),
                      mkMtarget name false linkPath (if fileExists then Some [46] else None) 0 None)
              end
        end in
      let '(create, m, target) := r in
      if mtIsPath target then Err EFormat
      else if negb (mtTablespaceId target =? 0) then Err EOptionInvalidValue
      else
        let* m := if create then Ok m else manifestLinkUpdate m (mtName target) (mtPath target) in
        let* target :=
          match mtFile target with
          | None => Ok target
          | Some _ =>
              if (length (strPath (mtPath target)) =? 0)%nat then Err EOptionInvalidValue
              else Ok (setTarget (strPath (mtPath target)) (Some (strBase (mtPath target))) target)
          end in
        if create then Ok (manifestTargetAdd m target) else manifestTargetUpdate m (mtName target) (mtPath target) (mtFile target)
  end.
(** remap.c.inc:105-216 *)
Fixpoint mapLinks (o : ropts) (todo : list str) (m : cman) : res cman :=
  match todo with [] => Ok m | x :: r => let* m := mapLink o m x in mapLinks o r m end.

(** remap.c.inc:218-255; [n] is the number of rounds, each removes a target or goes on to the next *)
Fixpoint dropLinks (n : nat) (o : ropts) (idx : nat) (m : cman) : res cman :=
  match n with
  | O => Ok m
  | S n =>
      match nth_error (cmTargets m) idx with
      | None => Ok m
      | Some t =>
          if negb (mtIsPath t) && (mtTablespaceId t =? 0) && negb (isSome (kvGet (roLink o) (skipn (length pgData + 1) (mtName t)))) then
            let* m := manifestLinkRemove m (mtName t) in
            let* m := manifestTargetRemove m (mtName t) in
            dropLinks n o idx m
          else dropLinks n o (S idx) m
      end
  end.
(** remap.c.inc:4-259 *)
Definition restoreManifestMap (o : ropts) (m : cman) : res cman :=
  let* m := mapBase o m in
  let* m := mapTablespace o m in
  let* m := mapLinks o (strLstSortAsc (map fst (roLink o))) m in
  if roLinkAll o then Ok m else dropLinks (length (cmTargets m)) o 0 m.
