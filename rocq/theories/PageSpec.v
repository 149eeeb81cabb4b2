(** What page checksum validation of a file has to report, stated on the whole file. *)
From Verif Require Import Base.
Open Scope nat_scope.

(** The checksum of PostgreSQL: 32 interleaved hashes.  Lane j hashes the little endian words j, 32+j, 64+j, ..., then two zero words. *)
Definition fnv (h v : Z) : Z := Z.lxor ((Z.lxor h v * 16777619) mod 2 ^ 32) (Z.lxor h v / 2 ^ 17).
Definition byteAt (page : list Z) (i : nat) : Z := if (i =? 8) || (i =? 9) then 0%Z else nth i page 0%Z.
Definition wordAt (page : list Z) (i : nat) : Z :=
  (byteAt page (4 * i) + 256 * byteAt page (4 * i + 1) + 256 ^ 2 * byteAt page (4 * i + 2) + 256 ^ 3 * byteAt page (4 * i + 3))%Z.
Definition laneWords (size : nat) (page : list Z) (j : nat) : list Z := map (fun i => wordAt page (32 * i + j)) (seq 0 (size / 128)) ++ [0%Z; 0%Z].
Definition laneSeeds : list Z :=
  [0x5b1f36e9; 0xb8525960; 0x02ab50aa; 0x1de66d2a; 0x79ff467a; 0x9bb9f8a3; 0x217e7cd2; 0x83e13d2c;
   0xf8d4474f; 0xe39eb970; 0x42c6ae16; 0x993216fa; 0x7b093b5d; 0x98daff3c; 0xf718902a; 0x0b1c9cdb;
   0xe58f764b; 0x187636bc; 0x5d7b3bb1; 0xe73de7de; 0x92bec979; 0xcca6c0b2; 0x304a0979; 0x85aa43d4;
   0x783125bb; 0x6ca8eaa2; 0xe407eac6; 0x4b5cfc3e; 0x9fbf8c76; 0x15ca20be; 0xf2ca9fd3; 0x959bd756]%Z.
Definition lane (size : nat) (page : list Z) (j : nat) : Z := fold_left fnv (laneWords size page j) (nth j laneSeeds 0%Z).
Definition xorAll (l : list Z) : Z := fold_right Z.lxor 0%Z l.
Definition checksumSpec (size : nat) (page : list Z) (block : Z) : Z :=
  (Z.lxor (xorAll (map (lane size page) (seq 0 32))) block mod 65535 + 1)%Z.

(** Page k of a file. *)
Definition pageAt (size : nat) (file : list Z) (k : nat) : list Z := firstn size (skipn (k * size) file).
(** pages of a file, with a part of a page at the end *)
Definition pageCount (size : nat) (file : list Z) : nat := length file / size + (if length file mod size =? 0 then 0 else 1).
Definition allZero (page : list Z) : Prop := Forall (fun b => b = 0%Z) page.
Definition u16 (page : list Z) (o : nat) : Z := (nth o page 0 + 256 * nth (o + 1) page 0)%Z.
(** the field whose zero marks a page that is new: pd_upper, or pd_checksum when headers are encrypted *)
Definition newKey (headerCheck : bool) (page : list Z) : Z := if headerCheck then u16 page 14 else u16 page 8.

(** A page is in order when it is all zero, or not marked new and with the right checksum. *)
Definition pageGood (size : nat) (headerCheck : bool) (page : list Z) (block : Z) : Prop :=
  allZero page \/ newKey headerCheck page <> 0%Z /\ u16 page 8 = checksumSpec size page block.
(** A page is bad when it is not in order and reading it again gives the same. *)
Definition pageBad (size : nat) (headerCheck : bool) (now : nat -> list Z) (file : list Z) (base : Z) (k : nat) : Prop :=
  ~ pageGood size headerCheck (pageAt size file k) (base + Z.of_nat k) /\ now k = pageAt size file k.

(** 1 KiB to 32 KiB *)
Definition validSize (size : nat) : Prop := exists k, k <= 5 /\ size = 1024 * 2 ^ k.

(** The text of the error list: single pages and ranges. *)
Inductive item := One (n : Z) | Span (a b : Z).
Definition expandItem (i : item) : list Z :=
  match i with One n => [n] | Span a b => map (fun k => (a + Z.of_nat k)%Z) (seq 0 (Z.to_nat (b - a + 1))) end.
Definition expand (l : list item) : list Z := flat_map expandItem l.
Definition lowOf (i : item) : Z := match i with One n => n | Span a _ => a end.
Definition highOf (i : item) : Z := match i with One n => n | Span _ b => b end.
(** shortest form: spans have at least two pages, and no item can be joined to the next *)
Fixpoint compact (l : list item) : Prop :=
  match l with
  | [] => True
  | i :: r => match i with One _ => True | Span a b => (a < b)%Z end /\ match r with [] => True | j :: _ => (highOf i + 1 < lowOf j)%Z end /\ compact r
  end.
