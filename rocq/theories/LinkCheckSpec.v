(** What the check of link destinations should mean. *)
From Verif Require Import Base Str ManifestModel LinkCheckModel.
Open Scope Z_scope.

(** The directory [q] is [p] or is in it, judged by the names *)
Definition inDir (p q : str) : Prop := exists r, q ++ [47] = (p ++ [47]) ++ r.

(** Absolute paths by their parts *)
Definition good (c : str) : Prop := c <> [] /\ ~ In 47 c.
Definition pathOf (cs : list str) : str := concat (map (fun c => 47 :: c) cs).

(** Following a relative path, part by part, from a directory *)
Fixpoint walk (base rel : list str) : option (list str) :=
  match rel with
  | [] => Some base
  | c :: r =>
      if strEqb c [46;46] then match base with [] => None | _ => walk (removelast base) r end
      else if strEqb c [46] then walk base r
      else walk (base ++ [c]) r
  end.

(** The destinations of the links in order: directory and, if the link is to a file, its name *)
Definition isDests (ts : list mtarget) (ds : list (str * option str)) : Prop :=
  Forall2 (fun t d => manifestTargetPath ts t = Ok (fst d) /\ mtFile t = snd d) (filter (fun t => negb (mtIsPath t)) ts) ds.

(** What the check looks at.  Of the file links to one directory only the first is compared with the others. *)
Definition checked (base : str) (ds : list (str * option str)) : Prop :=
  (forall p f, In (p, f) ds -> ~ inDir base p) /\
  (forall i j p q f g, (i < j)%nat -> nth_error ds i = Some (p, f) -> nth_error ds j = Some (q, g) ->
    (p = q ->
      exists a b, f = Some a /\ g = Some b /\ ((forall k q h, (k < i)%nat -> nth_error ds k = Some (q, h) -> q <> p) -> a <> b)) /\
    (f = None -> g = None -> ~ inDir p q /\ ~ inDir q p)).
