(** Vocabulary for C98: changing the public share of a report
    (draft-irtf-cfrg-vdaf.md:6083-6087).  Nothing here models a /repo function. *)
From Verif Require Export Poplar1Spec Poplar1ViewSpec.
Open Scope nat_scope.

(** Sum of two vectors of the same class. *)
Definition fv_plus {Pi Pl} (v d : FieldVec Pi Pl) : FieldVec Pi Pl :=
  match v, d with
  | Inner a, Inner b => Inner (zip_with fadd a b)
  | Leaf a, Leaf b => Leaf (zip_with fadd a b)
  | _, _ => v
  end.

(** The public share with [delta] added to the payload of one level; seeds and
    control bits stay. *)
Definition tampered {idpf : Idpf} (level : nat) (delta : FieldVec (id_field_inner idpf) (id_field_leaf idpf))
  (ps : list (CorrectionWord idpf)) : list (CorrectionWord idpf) :=
  match nth_error ps level with
  | Some (seed, ctrl, w) => upd ps level (seed, ctrl, fv_plus w delta)
  | None => ps
  end.

(** The values of a point function with [delta] added to the one of [level]. *)
Definition plus_inner {idpf : Idpf} (level : nat) (delta : FieldVec (id_field_inner idpf) (id_field_leaf idpf))
  (beta_inner : list (list (F (id_field_inner idpf)))) : list (list (F (id_field_inner idpf))) :=
  match delta with Inner d => upd beta_inner level (zip_with fadd (nth level beta_inner []) d) | Leaf _ => beta_inner end.
Definition plus_leaf {idpf : Idpf} (delta : FieldVec (id_field_inner idpf) (id_field_leaf idpf))
  (beta_leaf : list (F (id_field_leaf idpf))) : list (F (id_field_leaf idpf)) :=
  match delta with Inner _ => beta_leaf | Leaf d => zip_with fadd beta_leaf d end.

(** [d] added to the first element and nothing to the second, in the field of the
    level. *)
Definition delta_at (p : Poplar1) (level : nat) (d : Z) : FieldVec (id_field_inner (p1_idpf p)) (id_field_leaf (p1_idpf p)) :=
  if level <? id_BITS (p1_idpf p) - 1 then Inner [fof d; f0] else Leaf [fof d; f0].

(** The verification randomness of the candidate prefix on the path to [m], zero
    if there is none. *)
Fixpoint path_draw (prefixes : list (list bool)) (level : nat) (m : list bool) (r : list Z) : Z :=
  match prefixes, r with
  | x :: prefixes, v :: r => if list_eq_dec Bool.bool_dec x (firstn (S level) m) then v else path_draw prefixes level m r
  | _, _ => 0%Z
  end.
