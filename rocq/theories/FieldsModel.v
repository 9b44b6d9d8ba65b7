(** Operators with named fields and composite operators (src/petsc_operator.c, include/private/rdyoperatorimpl.h:45-90). *)
From Verif Require Import Base.
From Coq Require Import String.
Local Notation length := List.length.
Local Open Scope nat_scope.

(* config.h.in:4, CMakeLists.txt: MAX_NAME_LEN = 128 *)
Definition MAX_NAME_LEN : nat := 128.
(* !strncmp(a, b, MAX_NAME_LEN); strncpy into a zeroed array of MAX_NAME_LEN + 1 characters keeps as many *)
Definition short (s : string) : string := substring 0 MAX_NAME_LEN s.
Definition same_name (a b : string) : bool := String.eqb (short a) (short b).

(** ** Arrays that grow *)
(* num entries used of the capacity allocated; None: allocated by PetscRealloc, never written *)
Record array (A : Type) := Array { a_num : nat; a_cells : list (option A) }.
Arguments Array {A}. Arguments a_num {A}. Arguments a_cells {A}.
(* petsc_operator.c:92-97, 121-126; None: write outside the allocated memory *)
Definition grow {A} (a : array A) : array A :=
  let cap := length (a_cells a) in
  if Nat.ltb cap (a_num a + 1) then
    let cap' := if Nat.ltb 0 cap then 2 * cap else 8 in Array (a_num a) (a_cells a ++ repeat None (cap' - cap))
  else a.
Definition append {A} (a : array A) (x : A) : option (array A) :=
  let* cells := upd (a_cells (grow a)) (a_num (grow a)) (Some x) in Some (Array (S (a_num a)) cells).

(** ** Fields (rdyoperatorimpl.h:49-59); a Vec is a number *)
Record field := Field { f_name : string; f_vec : nat }.
(* fields[f] for f < num_fields; None: entry never written *)
Definition entries {A} (a : array A) : option (list A) := omap (fun i => let* x := nth_error (a_cells a) i in x) (seq 0 (a_num a)).
(* petsc_operator.c:107-117; the outer option is an undefined read, the inner one is the NULL pointer *)
Definition PetscOperatorFieldsGet (fields : array field) (name : string) : option (option nat) :=
  let* l := entries fields in Some (option_map f_vec (find (fun f => same_name name (f_name f)) l)).
(* petsc_operator.c:142-149: the last one *)
Fixpoint find_last (name : string) (l : list field) (f : nat) (index : option nat) : option nat :=
  match l with
  | [] => index
  | x :: t => find_last name t (S f) (if same_name name (f_name x) then Some f else index)
  end.
(* petsc_operator.c:139-161 *)
Definition set_field (fields : array field) (name : string) (vec : nat) : option (array field) :=
  let* l := entries fields in
  match find_last name l 0 None with
  | Some index => let* cells := upd (a_cells fields) index (Some (Field (short name) vec)) in Some (Array (a_num fields) cells)
  | None => append fields (Field (short name) vec)
  end.

(** ** Operators (rdyoperatorimpl.h:73-82) *)
(* An operator is either a function, identified by a number, or a composite.  Sub-operators are owned by the
   composite (petsc_operator.c:84), so that the pointers form a tree. *)
Inductive op :=
| Leaf (fields : array field) (id : nat)
| Composite (fields : array field) (num : nat) (subs : list (option op)).
Definition op_fields (o : op) : array field := match o with Leaf f _ => f | Composite f _ _ => f end.
(* petsc_operator.c:11-21, 73-81 *)
Definition PetscOperatorCreate (id : nat) : op := Leaf (Array 0 []) id.
Definition PetscOperatorCreateComposite : op := Composite (Array 0 []) 0 [].
(* petsc_operator.c:86-98; None: not a composite, or write outside the allocated memory *)
Definition PetscOperatorCompositeAddSub (o sub : op) : option op :=
  match o with
  | Leaf _ _ => None
  | Composite f n subs => let* a := append (Array n subs) sub in Some (Composite f (a_num a) (a_cells a))
  end.
(* petsc_operator.c:137-169: the sub-operators with index below num_suboperators, in order *)
Fixpoint PetscOperatorSetField (o : op) (name : string) (vec : nat) : option op :=
  match o with
  | Leaf f id => let* f' := set_field f name vec in Some (Leaf f' id)
  | Composite f n subs =>
    let* f' := set_field f name vec in
    let* subs' := (fix each (n : nat) (l : list (option op)) {struct l} : option (list (option op)) :=
      match n, l with
      | 0, _ => Some l
      | S n', Some s :: t => let* s' := PetscOperatorSetField s name vec in let* t' := each n' t in Some (Some s' :: t')
      | S _, _ => None
      end) n subs in
    Some (Composite f' n subs')
  end.

Section Apply.
  (* the function of an operator: id, fields, right-hand side before -> after; None: error.
     The functions of the code read fields through PetscOperatorFieldsGet only.  dt and the solution, the same
     for all, are left out. *)
  Context {F : Type} (leaf : nat -> (string -> option (option nat)) -> F -> option F).
  (* petsc_operator.c:45-49, 56-63 *)
  Fixpoint PetscOperatorApply (o : op) (f : F) : option F :=
    match o with
    | Leaf fields id => leaf id (PetscOperatorFieldsGet fields) f
    | Composite _ n subs =>
      (fix each (n : nat) (l : list (option op)) (f : F) {struct l} : option F :=
        match n, l with
        | 0, _ => Some f
        | S n', Some s :: t => let* f' := PetscOperatorApply s f in each n' t f'
        | S _, _ => None
        end) n subs f
    end.
End Apply.
