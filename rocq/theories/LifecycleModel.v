(** Initialisation, shutdown handlers and the CEED context (src/rdycore.c:62-154, src/ceed.c:4-69, src/operator.c:692-755). *)
From Coq Require Import String.
From Verif Require Import Base.
Local Notation length := List.length.
Local Open Scope nat_scope.

(* functions registered with RDyOnFinalize: those of the library, and any other, identified by a number *)
Inductive handler := DestroyCourantNumberDiagnostics | ClearCeedResource | User (n : nat).
(* The static variables of the library, and what it has done. *)
Record lib := Lib {
  l_initialized : bool;                    (* rdycore.c:7 *)
  l_funcs : option (list (option handler)); (* shutdown_funcs_ (rdycore.c:114); None: NULL; an entry that is None: a NULL or undefined pointer; the capacity is the length *)
  l_num : nat;                             (* num_shutdown_funcs_ *)
  l_diag_init : bool;                      (* operator.c:729 *)
  l_diag_alive : bool;                     (* the MPI type and operation of operator.c:698-702 exist *)
  l_first_time : bool;                     (* ceed.c:61 *)
  l_resource : string;                     (* ceed.c:5 *)
  l_context : option nat;                  (* ceed.c:6; contexts are numbered in the order of CeedInit *)
  l_created : list string;                 (* resources of the contexts made so far *)
  l_destroyed : list nat;                  (* contexts destroyed, in order *)
  l_called : list handler }.               (* handlers called, in order *)
Definition fresh : lib := Lib false None 0 false false true "" None [] [] [].

(* rdycore.c:119-131; None: write outside the allocated memory.  Realloc leaves new entries undefined. *)
Definition RDyOnFinalize (l : lib) (h : handler) : option lib :=
  let cells := match l_funcs l with
    | None => repeat None 32
    | Some cells => if Nat.eqb (l_num l) (length cells) then cells ++ repeat None (2 * length cells - length cells) else cells
    end in
  let* cells' := upd cells (l_num l) (Some h) in
  Some (Lib (l_initialized l) (Some cells') (S (l_num l)) (l_diag_init l) (l_diag_alive l) (l_first_time l) (l_resource l) (l_context l) (l_created l) (l_destroyed l) (l_called l)).

(* operator.c:726-755 *)
Definition InitCourantNumberDiagnostics (l : lib) : option lib :=
  if l_diag_init l then Some l else
  let* l := RDyOnFinalize (Lib (l_initialized l) (l_funcs l) (l_num l) (l_diag_init l) true (l_first_time l) (l_resource l) (l_context l) (l_created l) (l_destroyed l) (l_called l)) DestroyCourantNumberDiagnostics in
  Some (Lib (l_initialized l) (l_funcs l) (l_num l) true (l_diag_alive l) (l_first_time l) (l_resource l) (l_context l) (l_created l) (l_destroyed l) (l_called l)).
(* rdycore.c:64-85, 89-109 *)
Definition RDyInit (l : lib) : option lib :=
  if l_initialized l then Some l else
  let* l := InitCourantNumberDiagnostics l in
  Some (Lib true (l_funcs l) (l_num l) (l_diag_init l) (l_diag_alive l) (l_first_time l) (l_resource l) (l_context l) (l_created l) (l_destroyed l) (l_called l)).

(* PETSC_MAX_PATH_LEN; strncpy without terminator beyond, and the next strcmp reads on *)
Definition MAX_PATH_LEN : Z := 4096.
(* ceed.c:46-69; the resource is None for NULL; every resource is taken to be valid for CeedInit *)
Definition SetCeedResource (l : lib) (resource : option string) : option lib :=
  let set ctx res created destroyed := Lib (l_initialized l) (l_funcs l) (l_num l) (l_diag_init l) (l_diag_alive l) (l_first_time l) res ctx created destroyed (l_called l) in
  let same := match l_context l, resource with Some _, Some r => String.eqb r (l_resource l) | _, _ => false end in
  if same then Some l else
  let destroyed := match l_context l with Some c => l_destroyed l ++ [c] | None => l_destroyed l end in
  match resource with
  | None | Some EmptyString => Some (set None (l_resource l) (l_created l) destroyed)
  | Some r =>
    if Z.leb MAX_PATH_LEN (Z.of_nat (String.length r)) then None else
    let l := set (Some (length (l_created l))) r (l_created l ++ [r]) destroyed in
    if l_first_time l then
      let* l := RDyOnFinalize l ClearCeedResource in
      Some (Lib (l_initialized l) (l_funcs l) (l_num l) (l_diag_init l) (l_diag_alive l) false (l_resource l) (l_context l) (l_created l) (l_destroyed l) (l_called l))
    else Some l
  end.
(* ceed.c:9 *)
Definition CeedEnabled (l : lib) : bool := match l_context l with Some _ => true | None => false end.

(* operator.c:718-721: freeing what does not exist is an error in MPI *)
Definition call_handler (l : lib) (h : handler) : option lib :=
  let* l := match h with
    | DestroyCourantNumberDiagnostics => if l_diag_alive l then Some (Lib (l_initialized l) (l_funcs l) (l_num l) (l_diag_init l) false (l_first_time l) (l_resource l) (l_context l) (l_created l) (l_destroyed l) (l_called l)) else None
    | ClearCeedResource => SetCeedResource l None
    | User _ => Some l
    end in
  Some (Lib (l_initialized l) (l_funcs l) (l_num l) (l_diag_init l) (l_diag_alive l) (l_first_time l) (l_resource l) (l_context l) (l_created l) (l_destroyed l) (l_called l ++ [h])).
(* rdycore.c:138-140: i = num - 1 down to 0; None: NULL pointer called *)
Fixpoint call_down (n : nat) (cells : list (option handler)) (l : lib) : option lib :=
  match n with
  | 0 => Some l
  | S i => let* x := nth_error cells i in let* h := x in let* l := call_handler l h in call_down i cells l
  end.
(* rdycore.c:135-149; PetscFree sets the pointer to NULL *)
Definition RDyFinalize (l : lib) : option lib :=
  let* l := match l_funcs l with None => Some l | Some cells => call_down (l_num l) cells l end in
  Some (Lib false None (l_num l) (l_diag_init l) (l_diag_alive l) (l_first_time l) (l_resource l) (l_context l) (l_created l) (l_destroyed l) (l_called l)).
(* calls a program can make between initialisation and finalisation *)
Inductive action := Init | OnFinalize (n : nat) | SelectCeed (resource : option string).
Definition act (l : lib) (a : action) : option lib :=
  match a with Init => RDyInit l | OnFinalize n => RDyOnFinalize l (User n) | SelectCeed r => SetCeedResource l r end.
