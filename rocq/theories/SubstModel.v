(** Reading the configuration file (src/yaml_input.c:1469-1591): placeholders, prefix of output files, broadcast.
    A text is a list of bytes; the terminating NUL of a C string is explicit in buffers. *)
From Verif Require Import Base SetupModel.
From Coq Require Import String Ascii.
Local Open Scope nat_scope.
Local Notation length := List.length.

Definition NUL : ascii := zero.
Fixpoint starts_with (pat s : list ascii) : bool :=
  match pat, s with [], _ => true | a :: pat, b :: s => Ascii.eqb a b && starts_with pat s | _ :: _, [] => false end.
(* strstr(s, pat) as an offset; the search ends at the first NUL *)
Fixpoint strstr (pat s : list ascii) : option nat :=
  if starts_with pat s then Some 0
  else match s with [] => None | c :: s => if Ascii.eqb c NUL then None else option_map S (strstr pat s) end.
(* memcpy(buffer + q, bytes, ...); writing outside the allocation is undefined *)
Definition memcpy (buffer : list ascii) (q : nat) (bytes : list ascii) : option (list ascii) :=
  if Nat.leb (q + length bytes) (length buffer) then Some (firstn q buffer ++ bytes ++ skipn (q + length bytes) buffer) else None.

(* {pattern, substitution} *)
Definition substitution := (list ascii * list ascii)%type.
(* 1506-1519: the loop over the occurrences of one pattern.  [p] is the text from the pointer on; a loop that does not
   end within [fuel] rounds is reported as None. *)
Fixpoint count_occurrences (fuel : nat) (pat p : list ascii) : option nat :=
  match fuel with
  | 0 => None
  | S fuel =>
      match strstr pat p with
      | Some k => option_map S (count_occurrences fuel pat (skipn (k + length pat) p))
      | None => Some 0
      end
  end.
(* 1522-1544: copy the text with the occurrences of one pattern replaced; [buffer] is *content, [q] the write position *)
Fixpoint copy_replacing (fuel : nat) (pat rep p : list ascii) (q : nat) (buffer : list ascii) : option (nat * list ascii) :=
  match fuel with
  | 0 => None
  | S fuel =>
      match strstr pat p with
      | Some k =>
          let* buffer := memcpy buffer q (firstn k p) in
          let q := q + k in
          let* buffer := memcpy buffer q rep in
          copy_replacing fuel pat rep (skipn (k + length pat) p) (q + length rep) buffer
      | None => let* buffer := memcpy buffer q p in Some (q + length p, buffer)
      end
  end.
(* 1483-1549.  Returns the buffer, with its terminating NUL, and the size.  Sizes are taken to fit in an int and fread
   to return the whole file. *)
Definition ReadAndSubstitute (subs : list substitution) (raw : list ascii) : result (list ascii * Z) :=
  let raw_size := Z.of_nat (length raw) in
  let raw_content := (raw ++ [NUL])%list in
  let! counts := of_option (omap (fun s : substitution => count_occurrences (S (length raw)) (fst s) raw) subs) in
  let num := list_sum counts in
  let content_size := fold_left (fun size sc => (size + Z.of_nat (snd sc) * (Z.of_nat (length (snd (fst sc))) - Z.of_nat (length (fst (fst sc)))))%Z) (combine subs counts) raw_size in
  let! content :=
    (if Nat.ltb 0 num then
       fold_left (fun content (s : substitution) =>
           let! content := content in
           let! qb := of_option (copy_replacing (S (length raw)) (fst s) (snd s) raw 0 content) in
           check (Z.eqb (Z.of_nat (fst qb)) content_size) (Ret (snd qb)))
         subs (Ret (repeat NUL (Z.to_nat (content_size + 1))))
     else Ret raw_content) in
  let! content := of_option (if (content_size <? 0)%Z then None else memcpy content (Z.to_nat content_size) [NUL]) in
  Ret (content, content_size).
(* 1474-1480: the table has one entry; the replacement is "int32" or "int64" *)
Definition ID_TYPE_PATTERN : list ascii := list_ascii_of_string "${PETSC_ID_TYPE}".
Definition substitutions (id_type : list ascii) : list substitution := [(ID_TYPE_PATTERN, id_type)].

(* 1571-1591: [rank] gets the text; MPI_Bcast delivers the first config_size bytes of process 0 *)
Definition ReadAndBroadcastConfigFile (id_type raw : list ascii) (rank : nat) : result (list ascii) :=
  let! cs := ReadAndSubstitute (substitutions id_type) raw in
  match rank with
  | 0 => Ret (fst cs)
  | S _ => Ret (firstn (Z.to_nat (snd cs)) (fst cs) ++ [NUL])%list
  end.

(** ** Prefix of output files (1552-1567) *)
(* the buffer holds the prefix followed by NULs; here the C string in it *)
Definition DetermineConfigPrefix (config_file : list ascii) : list ascii :=
  let yaml := list_ascii_of_string ".yaml" in let yml := list_ascii_of_string ".yml" in
  match (match strstr yaml config_file with Some k => Some k | None => strstr yml config_file end) with
  | Some k => firstn k config_file
  | None => config_file
  end.
