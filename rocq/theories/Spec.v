(** Spec.v : specification vocabulary, independent of the model of the code.

    A grid point is a pair or triple of integers.  A tile is an inclusive box.
    The documentation (doc/layout) says how a tile is stored: a flat array whose
    fastest, middle and slowest varying dimensions are i,j,k; a permutation
    changes which dimension is fastest; [nq] values per point are contiguous. *)

From Verif Require Import Base.

(** ** 3d *)
Definition pt3 := (Z * Z * Z)%type.

Record box3 := mkbox3 { ilo : Z; ihi : Z; jlo : Z; jhi : Z; klo : Z; khi : Z }.

Definition ni (b : box3) := ihi b - ilo b + 1.
Definition nj (b : box3) := jhi b - jlo b + 1.
Definition nk (b : box3) := khi b - klo b + 1.

Definition inb3 (p : pt3) (b : box3) : Prop :=
  let '(i, j, k) := p in ilo b <= i <= ihi b /\ jlo b <= j <= jhi b /\ klo b <= k <= khi b.

(** number of points of a (possibly empty) box *)
Definition vol3 (b : box3) : Z := Z.max 0 (ni b) * Z.max 0 (nj b) * Z.max 0 (nk b).

(** bounds as the documentation allows them: lo <= hi, or lo = hi+1 when empty *)
Definition legal3 (b : box3) : Prop := 0 <= ni b /\ 0 <= nj b /\ 0 <= nk b.

(** storage position of a point of tile [b]: permute 0 = i fastest, then j, then k;
    1 = j fastest, then k, then i; 2 = k fastest, then i, then j *)
Definition pos3 (perm : Z) (b : box3) (p : pt3) : Z :=
  let '(i, j, k) := p in
  if perm =? 0 then ((k - klo b) * nj b + (j - jlo b)) * ni b + (i - ilo b)
  else if perm =? 1 then ((i - ilo b) * nk b + (k - klo b)) * nj b + (j - jlo b)
  else ((j - jlo b) * ni b + (i - ilo b)) * nk b + (k - klo b).

(** cell of component [q] *)
Definition cell3 (nq perm : Z) (b : box3) (p : pt3) (q : Z) : Z := nq * pos3 perm b p + q.

(** the array holds the distributed field [g] on tile [b] *)
Definition holds3 {A} (nq perm : Z) (b : box3) (g : pt3 -> Z -> A) (arr : list A) : Prop :=
  forall p q, inb3 p b -> 0 <= q < nq -> zget arr (cell3 nq perm b p q) = Some (g p q).

(** no point of an out tile is owned by two ranks of the in layout *)
Definition disjoint_owners3 (n : nat) (ins : nat -> box3) : Prop :=
  forall p r r', (r < n)%nat -> (r' < n)%nat -> inb3 p (ins r) -> inb3 p (ins r') -> r = r'.
(** every point of every out tile is owned by some rank of the in layout *)
Definition covered3 (n : nat) (ins outs : nat -> box3) : Prop :=
  forall p r, (r < n)%nat -> inb3 p (outs r) -> exists s, (s < n)%nat /\ inb3 p (ins s).

(** the tiles partition the global grid 0..Ni-1 x 0..Nj-1 x 0..Nk-1 *)
Definition grid3 (N : Z * Z * Z) : box3 := let '(x, y, z) := N in mkbox3 0 (x - 1) 0 (y - 1) 0 (z - 1).
Definition tiling3 (n : nat) (N : Z * Z * Z) (t : nat -> box3) : Prop :=
  (forall p r, (r < n)%nat -> inb3 p (t r) -> inb3 p (grid3 N)) /\
  disjoint_owners3 n t /\
  (forall p, inb3 p (grid3 N) -> exists r, (r < n)%nat /\ inb3 p (t r)).

(** renaming the axes: storage with permute [perm] is plain storage after renaming
    (j,k,i) for 1 and (k,i,j) for 2 *)
Definition rotp3 (perm : Z) (p : pt3) : pt3 :=
  let '(i, j, k) := p in if perm =? 0 then (i, j, k) else if perm =? 1 then (j, k, i) else (k, i, j).
Definition rotb3 (perm : Z) (b : box3) : box3 :=
  if perm =? 0 then b
  else if perm =? 1 then mkbox3 (jlo b) (jhi b) (klo b) (khi b) (ilo b) (ihi b)
  else mkbox3 (klo b) (khi b) (ilo b) (ihi b) (jlo b) (jhi b).
(** the permutation that undoes [perm] *)
Definition back3 (perm : Z) : Z := if perm =? 0 then 0 else 3 - perm.

(** ** 2d *)
Definition pt2 := (Z * Z)%type.
Record box2 := mkbox2 { ilo2 : Z; ihi2 : Z; jlo2 : Z; jhi2 : Z }.
Definition ni2 (b : box2) := ihi2 b - ilo2 b + 1.
Definition nj2 (b : box2) := jhi2 b - jlo2 b + 1.
Definition inb2 (p : pt2) (b : box2) : Prop :=
  let '(i, j) := p in ilo2 b <= i <= ihi2 b /\ jlo2 b <= j <= jhi2 b.
Definition vol2 (b : box2) : Z := Z.max 0 (ni2 b) * Z.max 0 (nj2 b).
Definition legal2 (b : box2) : Prop := 0 <= ni2 b /\ 0 <= nj2 b.

(** permute 0 = i fastest, 1 = j fastest *)
Definition pos2 (perm : Z) (b : box2) (p : pt2) : Z :=
  let '(i, j) := p in
  if perm =? 0 then (j - jlo2 b) * ni2 b + (i - ilo2 b) else (i - ilo2 b) * nj2 b + (j - jlo2 b).
Definition cell2 (nq perm : Z) (b : box2) (p : pt2) (q : Z) : Z := nq * pos2 perm b p + q.
Definition holds2 {A} (nq perm : Z) (b : box2) (g : pt2 -> Z -> A) (arr : list A) : Prop :=
  forall p q, inb2 p b -> 0 <= q < nq -> zget arr (cell2 nq perm b p q) = Some (g p q).
Definition disjoint_owners2 (n : nat) (ins : nat -> box2) : Prop :=
  forall p r r', (r < n)%nat -> (r' < n)%nat -> inb2 p (ins r) -> inb2 p (ins r') -> r = r'.
Definition covered2 (n : nat) (ins outs : nat -> box2) : Prop :=
  forall p r, (r < n)%nat -> inb2 p (outs r) -> exists s, (s < n)%nat /\ inb2 p (ins s).
Definition grid2 (N : Z * Z) : box2 := let '(x, y) := N in mkbox2 0 (x - 1) 0 (y - 1).
Definition tiling2 (n : nat) (N : Z * Z) (t : nat -> box2) : Prop :=
  (forall p r, (r < n)%nat -> inb2 p (t r) -> inb2 p (grid2 N)) /\
  disjoint_owners2 n t /\
  (forall p, inb2 p (grid2 N) -> exists r, (r < n)%nat /\ inb2 p (t r)).

Definition rotp2 (perm : Z) (p : pt2) : pt2 := let '(i, j) := p in if perm =? 0 then (i, j) else (j, i).
Definition rotb2 (perm : Z) (b : box2) : box2 := if perm =? 0 then b else mkbox2 (jlo2 b) (jhi2 b) (ilo2 b) (ihi2 b).
