(** What the formulas of the input file mean, and lemmas on their evaluation. *)
From Coq Require Import String.
From Verif Require Import Base MeshMapsModel DataModel SetupModel GridModel FormulasModel FormulasProofs.
Local Open Scope nat_scope.
Local Notation length := List.length.

(** ** Specification *)
(* the value of a term when names have the values [env] *)
Fixpoint value (env : string -> option R) (t : term) : option R :=
  match t with
  | Num r => Some r
  | Name s => env s
  | Fun1 f a => let* x := value env a in Some (f x)
  | Fun2 f a b => let* x := value env a in let* y := value env b in Some (f x y)
  | Fun3 f a b c => let* x := value env a in let* y := value env b in let* z := value env c in Some (f x y z)
  end.
(* what a text means; [None]: it cannot be parsed or uses a name that has no value *)
Definition meaning (parse : string -> option term) (e : string) (env : string -> option R) : option R := let* t := parse e in value env t.
Definition letters : list string :=
  ["A"; "B"; "C"; "D"; "E"; "F"; "G"; "H"; "I"; "J"; "K"; "L"; "M"; "N"; "O"; "P"; "Q"; "R"; "S"; "T"; "U"; "V"; "W"; "X"; "Y"; "Z"]%string.
(* constants: those of the file, 0 for the letters not given *)
Definition constant (fm : formulas) (s : string) : option R :=
  if in_dec string_dec s letters then Some (match fm_constants fm s with Some v => v | None => 0%R end) else None.
Definition at_point (fm : formulas) (x y time : R) (s : string) : option R :=
  match constant fm s with
  | Some v => Some v
  | None => if string_dec s "x" then Some x else if string_dec s "y" then Some y else if string_dec s "t" then Some time else None
  end.
Definition at_place (fm : formulas) (x y : R) (s : string) : option R :=
  match constant fm s with Some v => Some v | None => if string_dec s "x" then Some x else if string_dec s "y" then Some y else None end.
(* the text the user wrote for each place *)
Definition text_of (fm : formulas) (v : place) : option string :=
  match v with
  | PSwe f => if given (fm_swe fm F_h) then Some (fm_swe fm f) else None
  | PSediment i k => if Nat.ltb i (fm_classes fm) then Some (fm_sediment fm i k) else None
  | PSalinity k => if fm_has_salinity fm then Some (fm_salinity fm k) else None
  | PHeat k => if fm_has_heat fm then Some (fm_heat fm k) else None
  | PManning m => let* e := nth_error (fm_materials fm) m in if given e then Some e else None
  | PHeight c => option_map ff_height (nth_error (fm_flow fm) c)
  | PXMomentum c => option_map ff_xmom (nth_error (fm_flow fm) c)
  | PYMomentum c => option_map ff_ymom (nth_error (fm_flow fm) c)
  | PValue c => option_map ff_value (nth_error (fm_flow fm) c)
  | PClass c i => let* l := nth_error (fm_sediment_conditions fm) c in if Nat.ltb i (fm_classes fm) then Some (nth i l ""%string) else None
  | PConcentration c => nth_error (fm_salinity_conditions fm) c
  | PTemperature _ => None
  end.
(* functions of manufactured solutions, as opposed to conditions and materials *)
Definition manufactured (v : place) : bool := match v with PSwe _ | PSediment _ _ | PSalinity _ | PHeat _ => true | _ => false end.
Definition understood (parse : string -> option term) (e : string) (vars : list string) : Prop :=
  exists t, parse e = Some t /\ incl (names t) (letters ++ vars).
Definition uses_time (parse : string -> option term) (e : string) : Prop := exists t, parse e = Some t /\ In "t"%string (names t).

(** ** The constants *)
Definition consts (fm : formulas) (v : place) : list (string * R) := if manufactured v then constants_list fm else [].
Lemma assoc_none {A} s (l : list (string * A)) : ~ In s (map fst l) -> assoc s l = None.
Proof.
  induction l as [|[k v] l IH]; cbn [assoc map fst In]; intros H; [reflexivity|]. destruct (String.eqb_spec k s); [subst; tauto|]. apply IH. tauto.
Qed.
Lemma constants_ok fm s : assoc s (constants_list fm) = constant fm s.
Proof.
  unfold constant. destruct (in_dec string_dec s letters) as [I|N].
  - cbn [letters In] in I. repeat (destruct I as [<- | I]; [reflexivity|]). destruct I.
  - apply assoc_none. intros X. apply N. replace (map fst (constants_list fm)) with (rev letters) in X by reflexivity. apply in_rev. exact X.
Qed.

(** ** After parsing *)
Lemma in_jobs fm v p : In (v, p) (jobs fm) <-> exists e, text_of fm v = Some e /\ p = Parser e (consts fm v) [].
Proof.
  unfold jobs. rewrite !in_app_iff. split.
  - intros H.
    destruct H as [H|[H|[H|[H|[H|[H|[H|H]]]]]]].
    + destruct (given (fm_swe fm F_h)) eqn:E; [|destruct H]. unfold swe_jobs in H. apply in_flat_map in H. destruct H as (f & _ & [H|[]]). injection H as <- <-. cbn. rewrite E. eauto.
    + destruct (Nat.ltb 0 (fm_classes fm)); [|destruct H]. unfold sediment_jobs in H. apply in_flat_map in H. destruct H as (i & Hi & H). apply in_flat_map in H. destruct H as (k & _ & [H|[]]). injection H as <- <-.
      apply in_seq in Hi. cbn [text_of]. destruct (Nat.ltb_spec i (fm_classes fm)); [|lia]. eexists; split; reflexivity.
    + destruct (fm_has_salinity fm) eqn:E; [|destruct H]. unfold salinity_jobs in H. apply in_flat_map in H. destruct H as (f & _ & [H|[]]). injection H as <- <-. cbn. rewrite E. eauto.
    + destruct (fm_has_heat fm) eqn:E; [|destruct H]. unfold heat_jobs in H. apply in_flat_map in H. destruct H as (f & _ & [H|[]]). injection H as <- <-. cbn. rewrite E. eauto.
    + unfold material_jobs in H. apply in_flat_map in H. destruct H as ([m e] & Hm & H). cbn [fst snd] in H. apply enum_in in Hm.
      destruct (given e) eqn:E; [|destruct H]. destruct H as [H|[]]. injection H as <- <-. cbn. rewrite Hm. cbn. rewrite E. eauto.
    + unfold flow_jobs in H. apply in_flat_map in H. destruct H as ([c ff] & Hc & H). cbn [fst snd] in H. apply enum_in in Hc.
      destruct H as [H|[H|[H|[H|[]]]]]; injection H as <- <-; cbn; rewrite Hc; cbn; eauto.
    + unfold class_jobs in H. apply in_flat_map in H. destruct H as ([c l] & Hc & H). cbn [fst snd] in H. apply enum_in in Hc.
      apply in_flat_map in H. destruct H as (i & Hi & [H|[]]). injection H as <- <-. apply in_seq in Hi. cbn [text_of]. rewrite Hc. cbn [obind]. destruct (Nat.ltb_spec i (fm_classes fm)); [|lia]. eauto.
    + unfold concentration_jobs in H. apply in_flat_map in H. destruct H as ([c e] & Hc & [H|[]]). cbn [fst snd] in H. apply enum_in in Hc. injection H as <- <-. cbn. eauto.
  - intros (e & He & ->). destruct v as [f|i k|k|k|m|c|c|c|c|c i|c|c]; cbn [text_of] in He; unfold consts; cbn [manufactured].
    + left. destruct (given (fm_swe fm F_h)); [|discriminate]. injection He as <-. apply in_flat_map. exists f. split; [destruct f; cbn; tauto|left; reflexivity].
    + right; left. destruct (Nat.ltb_spec i (fm_classes fm)); [|discriminate]. injection He as <-. destruct (Nat.ltb_spec 0 (fm_classes fm)); [|lia].
      apply in_flat_map. exists i. split; [apply in_seq; lia|]. apply in_flat_map. exists k. split; [destruct k; cbn; tauto|left; reflexivity].
    + do 2 right; left. destruct (fm_has_salinity fm); [|discriminate]. injection He as <-. apply in_flat_map. exists k. split; [destruct k; cbn; tauto|left; reflexivity].
    + do 3 right; left. destruct (fm_has_heat fm); [|discriminate]. injection He as <-. apply in_flat_map. exists k. split; [destruct k; cbn; tauto|left; reflexivity].
    + do 4 right; left. destruct (nth_error (fm_materials fm) m) as [e'|] eqn:E; [|discriminate]. cbn in He. destruct (given e') eqn:G; [|discriminate]. injection He as <-.
      apply in_flat_map. exists (m, e'). split; [apply enum_in; exact E|]. cbn [fst snd]. rewrite G. left. reflexivity.
    + do 5 right; left. destruct (nth_error (fm_flow fm) c) as [ff|] eqn:E; [|discriminate]. injection He as <-. apply in_flat_map. exists (c, ff). split; [apply enum_in; exact E|]. cbn; tauto.
    + do 5 right; left. destruct (nth_error (fm_flow fm) c) as [ff|] eqn:E; [|discriminate]. injection He as <-. apply in_flat_map. exists (c, ff). split; [apply enum_in; exact E|]. cbn; tauto.
    + do 5 right; left. destruct (nth_error (fm_flow fm) c) as [ff|] eqn:E; [|discriminate]. injection He as <-. apply in_flat_map. exists (c, ff). split; [apply enum_in; exact E|]. cbn; tauto.
    + do 5 right; left. destruct (nth_error (fm_flow fm) c) as [ff|] eqn:E; [|discriminate]. injection He as <-. apply in_flat_map. exists (c, ff). split; [apply enum_in; exact E|]. cbn; tauto.
    + do 6 right; left. destruct (nth_error (fm_sediment_conditions fm) c) as [l|] eqn:E; [|discriminate]. cbn [obind] in He. destruct (Nat.ltb_spec i (fm_classes fm)); [|discriminate]. injection He as <-.
      apply in_flat_map. exists (c, l). split; [apply enum_in; exact E|]. cbn [fst snd]. apply in_flat_map. exists i. split; [apply in_seq; lia|left; reflexivity].
    + do 7 right. apply in_flat_map. exists (c, e). split; [apply enum_in; exact He|left; reflexivity].
    + discriminate.
Qed.

(* every place with a text points to a live parser with this text and the constants of the file *)
Definition holds (fm : formulas) (s : state) : Prop :=
  good s /\ forall v, match text_of fm v with
                      | Some e => exists vars, view s v = Some (Some (Parser e (consts fm v) vars)) /\ incl (map fst vars) ["x"; "y"; "t"]%string
                      | None => view s v = None
                      end.
Lemma parse_ok fm : exists s, ParseMathExpressions fm initial = Ret s /\ good s /\
  forall v, view s v = option_map (fun e => Some (Parser e (consts fm v) [])) (text_of fm v).
Proof.
  destruct (parse_defines fm initial initial_good) as (s & E & G & V); [reflexivity|]. exists s. split; [exact E|]. split; [exact G|].
  intros v. rewrite V. unfold put. destruct (text_of fm v) as [e|] eqn:Et; cbn [option_map].
  - rewrite (jassoc_in v (Parser e (consts fm v) [])); [reflexivity|apply nodup_jobs|]. apply in_jobs. eauto.
  - rewrite jassoc_none; [reflexivity|]. intros X. apply in_map_iff in X. destruct X as ([w p] & <- & X). apply in_jobs in X. destruct X as (e & He & _). cbn [fst] in Et. congruence.
Qed.
Lemma parse_holds fm s : ParseMathExpressions fm initial = Ret s -> holds fm s.
Proof.
  intros E. destruct (parse_ok fm) as (s' & E' & G & V). assert (s' = s) by congruence. subst s'. split; [exact G|].
  intros v. rewrite V. destruct (text_of fm v) as [e|]; [|reflexivity]. exists []. split; [reflexivity|intros x []].
Qed.

(** ** Evaluation *)
Section Meaning.
  Variable parse : string -> option term.
  Lemma compute_value env env' t : (forall s, In s (names t) -> exists v, env s = Ret v /\ env' s = Some v) ->
    exists v, compute env t = Ret v /\ value env' t = Some v.
  Proof.
    induction t as [r|s|f a IHa|f a IHa b IHb|f a IHa b IHb c IHc]; cbn [names compute value]; intros H.
    - eauto.
    - apply H. left. reflexivity.
    - destruct (IHa H) as (x & -> & ->). cbn. eauto.
    - destruct IHa as (x & -> & ->); [intros s Hs; apply H, in_or_app; auto|]. destruct IHb as (y & -> & ->); [intros s Hs; apply H, in_or_app; auto|]. cbn. eauto.
    - destruct IHa as (x & Ea & Va); [intros s Hs; apply H, in_or_app; auto|].
      destruct IHb as (y & Eb & Vb); [intros s Hs; apply H, in_or_app; right; apply in_or_app; auto|].
      destruct IHc as (z & Ec & Vc); [intros s Hs; apply H, in_or_app; right; apply in_or_app; auto|].
      rewrite Ea, Va. cbn [rbind obind]. rewrite Eb, Vb. cbn [rbind obind]. rewrite Ec, Vc. cbn. eauto.
  Qed.
  Lemma value_unknown env t s : In s (names t) -> env s = None -> value env t = None.
  Proof.
    induction t as [r|s'|f a IHa|f a IHa b IHb|f a IHa b IHb c IHc]; cbn [names value]; intros H E.
    - destruct H.
    - destruct H as [<- | []]. exact E.
    - rewrite (IHa H E). reflexivity.
    - apply in_app_or in H. destruct H as [H|H]; [rewrite (IHa H E); reflexivity|]. rewrite (IHb H E). destruct (value env a); reflexivity.
    - apply in_app_or in H. destruct H as [H|H]; [rewrite (IHa H E); reflexivity|]. apply in_app_or in H. destruct H as [H|H]; [rewrite (IHb H E); destruct (value env a); reflexivity|].
      rewrite (IHc H E). destruct (value env a); [|reflexivity]. cbn. destruct (value env b); reflexivity.
  Qed.
  Lemma eval_known p i env t : parse (p_expr p) = Some t -> (forall s, In s (names t) -> lookup p 0 s <> None /\ exists v, lookup p i s = Some (Ret v) /\ env s = Some v) ->
    exists v, eval_at parse p i = Ret v /\ meaning parse (p_expr p) env = Some v.
  Proof.
    intros Ht H. unfold eval_at, meaning. rewrite Ht. cbn [obind].
    replace (forallb (is_known p) (names t)) with true.
    - apply compute_value. intros s Hs. destruct (H s Hs) as (_ & v & E & E'). exists v. unfold env_of. rewrite E. auto.
    - symmetry. apply forallb_forall. intros s Hs. unfold is_known. destruct (H s Hs) as (N & _). destruct (lookup p 0 s); [reflexivity|congruence].
  Qed.
  Lemma eval_unknown p i : (forall t, parse (p_expr p) = Some t -> exists s, In s (names t) /\ lookup p 0 s = None) -> eval_at parse p i = Error.
  Proof.
    intros H. unfold eval_at. destruct (parse (p_expr p)) as [t|]; [|reflexivity]. destruct (H t eq_refl) as (s & Hs & L).
    destruct (forallb (is_known p) (names t)) eqn:E; [|reflexivity]. rewrite forallb_forall in E. specialize (E s Hs). unfold is_known in E. rewrite L in E. discriminate.
  Qed.
  Lemma understood_dec e vars : {understood parse e vars} + {~ understood parse e vars}.
  Proof.
    unfold understood. destruct (parse e) as [t|]; [|right; intros (t & H & _); discriminate].
    destruct (Forall_dec (fun s => In s (letters ++ vars)) (fun s => in_dec string_dec s (letters ++ vars)) (names t)) as [F|F].
    - left. exists t. split; [reflexivity|]. rewrite Forall_forall in F. exact F.
    - right. intros (t' & E & I). injection E as <-. apply F. apply Forall_forall. exact I.
  Qed.
  Lemma not_understood e vars t : ~ understood parse e vars -> parse e = Some t -> exists s, In s (names t) /\ ~ In s (letters ++ vars).
  Proof.
    intros N Ht. destruct (Forall_Exists_dec (fun s => In s (letters ++ vars)) (fun s => in_dec string_dec s (letters ++ vars)) (names t)) as [F|F].
    - exfalso. apply N. exists t. split; [exact Ht|]. rewrite Forall_forall in F. exact F.
    - apply Exists_exists in F. exact F.
  Qed.
  (* a place without constants and variables *)
  Definition no_names : string -> option R := fun _ => None.
  Lemma eval_plain p : p_consts p = [] -> p_vars p = [] ->
    match eval_at parse p 0 with Error => Ret 0%R | r => r end = Ret (match meaning parse (p_expr p) no_names with Some v => v | None => 0%R end).
  Proof.
    intros C V. assert (L : forall s, lookup p 0 s = None) by (intros s; unfold lookup; rewrite C, V; reflexivity).
    destruct (parse (p_expr p)) as [t|] eqn:Et.
    - destruct (names t) as [|s l] eqn:En.
      + destruct (eval_known p 0 no_names t Et) as (v & E & M); [rewrite En; intros s []|]. rewrite E, M. reflexivity.
      + rewrite eval_unknown.
        * unfold meaning. rewrite Et. cbn [obind]. rewrite (value_unknown no_names t s); [reflexivity|rewrite En; left; reflexivity|reflexivity].
        * intros t' Et'. assert (t' = t) by congruence. subst t'. exists s. split; [rewrite En; left; reflexivity|apply L].
    - unfold eval_at, meaning. rewrite Et. reflexivity.
  Qed.

  Lemma lookup_letter fm e vars i s : In s letters -> lookup (Parser e (constants_list fm) vars) i s = option_map Ret (constant fm s).
  Proof. intros I. unfold lookup. cbn [p_consts]. rewrite constants_ok. unfold constant. destruct (in_dec string_dec s letters); [reflexivity|contradiction]. Qed.
  Lemma lookup_other fm e vars i s : ~ In s letters -> lookup (Parser e (constants_list fm) vars) i s =
    match assoc s vars with None => None | Some None => Some UB | Some (Some a) => Some (of_option (nth_error a i)) end.
  Proof. intros N. unfold lookup. cbn [p_consts p_vars]. rewrite constants_ok. unfold constant. destruct (in_dec string_dec s letters); [contradiction|reflexivity]. Qed.
  Lemma no_letter s : In s ["x"; "y"; "t"]%string -> ~ In s letters.
  Proof. cbn [In]. intros [<- | [<- | [<- | []]]] X; cbn [letters In] in X; repeat (destruct X as [X|X]; [discriminate X|]); exact X. Qed.

  Lemma rmap_ret {A B} (f : A -> result B) l g : (forall a, In a l -> f a = Ret (g a)) -> rmap f l = Ret (map g l).
  Proof.
    induction l as [|a l IH]; intros H; cbn [rmap map]; [reflexivity|]. rewrite (H a (or_introl eq_refl)). cbn [rbind].
    rewrite IH; [reflexivity|]. intros b Hb. apply H. right. exact Hb.
  Qed.
  Lemma bulk_known w n values s p (g : nat -> R) : good s -> view s w = Some (Some p) -> n <= length values -> (forall i, i < n -> eval_at parse p i = Ret (g i)) ->
    mupEvalBulk parse w n values s = Ret (map g (seq 0 n) ++ skipn n values).
  Proof.
    intros G V L H. unfold mupEvalBulk. rewrite (deref_spec _ _ _ G V). cbn [rbind]. destruct (Nat.ltb_spec (length values) n); [lia|].
    rewrite (rmap_ret _ _ g); [reflexivity|]. intros i Hi. apply in_seq in Hi. apply H. lia.
  Qed.
  Lemma bulk_unknown w n values s p : good s -> view s w = Some (Some p) -> n <= length values -> (forall i, eval_at parse p i = Error) ->
    mupEvalBulk parse w n values s = Ret values.
  Proof.
    intros G V L H. unfold mupEvalBulk. rewrite (deref_spec _ _ _ G V). cbn [rbind]. destruct (Nat.ltb_spec (length values) n); [lia|].
    destruct n as [|n]; [reflexivity|]. cbn [seq rmap]. rewrite H. reflexivity.
  Qed.
End Meaning.

(** ** Variables *)
Lemma define_var fm v e vars name a s : good s -> view s v = Some (Some (Parser e (consts fm v) vars)) -> In name ["x"; "y"; "t"]%string ->
  exists s', mupDefineVar v name a s = Ret s' /\ good s' /\
    forall w, view s' w = if place_eq_dec w v then Some (Some (Parser e (consts fm v) ((name, a) :: filter (fun kv => negb (String.eqb (fst kv) name)) vars))) else view s w.
Proof.
  intros G V I. unfold mupDefineVar.
  destruct (edit_spec v (fun p => match assoc name (p_consts p) with
                   | Some _ => p
                   | None => Parser (p_expr p) (p_consts p) ((name, a) :: filter (fun kv => negb (String.eqb (fst kv) name)) (p_vars p))
                   end) s _ G V) as (s' & E & G' & V').
  exists s'. split; [exact E|]. split; [exact G'|]. cbn [p_consts p_vars p_expr] in V'.
  assert (N : assoc name (consts fm v) = None).
  { unfold consts. destruct (manufactured v); [|reflexivity]. rewrite constants_ok. unfold constant. destruct (in_dec string_dec name letters) as [X|X]; [|reflexivity]. exfalso. exact (no_letter name I X). }
  rewrite N in V'. exact V'.
Qed.
Lemma filter_names (name : string) {A} (vars : list (string * A)) ns : incl (map fst vars) ns ->
  incl (map fst (filter (fun kv => negb (String.eqb (fst kv) name)) vars)) ns.
Proof.
  intros I s H. apply I. apply in_map_iff in H. destruct H as (kv & <- & H). apply filter_In in H. apply in_map. apply H.
Qed.
Lemma filter_drop (name : string) {A} (vars : list (string * A)) ns : incl (map fst vars) (name :: ns) ->
  incl (map fst (filter (fun kv => negb (String.eqb (fst kv) name)) vars)) ns.
Proof.
  intros I s H. apply in_map_iff in H. destruct H as (kv & <- & H). apply filter_In in H. destruct H as (H & N).
  destruct (I (fst kv) (in_map fst _ _ H)) as [X|X]; [|exact X]. rewrite X, String.eqb_refl in N. discriminate.
Qed.
Lemma define_holds fm v e name a s : holds fm s -> text_of fm v = Some e -> In name ["x"; "y"; "t"]%string ->
  exists s', mupDefineVar v name a s = Ret s' /\ holds fm s'.
Proof.
  intros [G H] T I. pose proof (H v) as Hv. rewrite T in Hv. destruct Hv as (vars & V & K).
  destruct (define_var fm v e vars name a s G V I) as (s' & E & G' & V'). exists s'. split; [exact E|]. split; [exact G'|].
  intros w. rewrite V'. destruct (place_eq_dec w v) as [-> | N]; [|exact (H w)]. rewrite T. eexists. split; [reflexivity|].
  cbn [map fst]. intros x [<- | X]; [exact I|]. exact (filter_names name vars _ K x X).
Qed.

Section Evaluate.
  Variable parse : string -> option term.
  Variable fm : formulas.

  (* after x, y and t have been set the parser has exactly these variables *)
  Lemma set_xyt v e a b c s : holds fm s -> text_of fm v = Some e ->
    exists s1 s2 s3, mupDefineVar v "x" a s = Ret s1 /\ mupDefineVar v "y" b s1 = Ret s2 /\ mupDefineVar v "t" c s2 = Ret s3 /\ holds fm s3 /\
      view s3 v = Some (Some (Parser e (consts fm v) [("t", c); ("y", b); ("x", a)]%string)).
  Proof.
    intros H T. destruct (H) as [G W]. pose proof (W v) as Hv. rewrite T in Hv. destruct Hv as (vars & V & K).
    destruct (define_var fm v e vars "x" a s G V) as (s1 & E1 & G1 & V1); [cbn; tauto|].
    pose proof (V1 v) as W1. destruct (place_eq_dec v v) as [_|X] in W1; [|congruence].
    destruct (define_var fm v e _ "y" b s1 G1 W1) as (s2 & E2 & G2 & V2); [cbn; tauto|].
    pose proof (V2 v) as W2. destruct (place_eq_dec v v) as [_|X] in W2; [|congruence].
    destruct (define_var fm v e _ "t" c s2 G2 W2) as (s3 & E3 & G3 & V3); [cbn; tauto|].
    pose proof (V3 v) as W3. destruct (place_eq_dec v v) as [_|X] in W3; [|congruence].
    exists s1, s2, s3. split; [exact E1|]. split; [exact E2|]. split; [exact E3|]. split; [split; [exact G3|]|].
    - intros w. destruct (place_eq_dec w v) as [-> | N].
      + rewrite T. eexists. split; [exact W3|]. cbn [map fst]. intros z [<- | Z]; [cbn; tauto|].
        apply (filter_names "t") with (ns := ["x"; "y"; "t"]%string) in Z; [exact Z|]. cbn [map fst]. intros z' [<- | Z']; [cbn; tauto|].
        apply (filter_names "y") with (ns := ["x"; "y"; "t"]%string) in Z'; [exact Z'|]. cbn [map fst]. intros z'' [<- | Z'']; [cbn; tauto|].
        apply (filter_names "x") with (ns := ["x"; "y"; "t"]%string) in Z''; [exact Z''|]. exact K.
      + rewrite V3, V2, V1. destruct (place_eq_dec w v); [contradiction|]. exact (W w).
    - rewrite W3. cbn [filter fst negb String.eqb Ascii.eqb Bool.eqb].
      assert (Z : filter (fun kv => negb (String.eqb (fst kv) "t")) (filter (fun kv => negb (String.eqb (fst kv) "y")) (filter (fun kv => negb (String.eqb (fst kv) "x")) vars)) = []).
      { apply (filter_drop "x") with (ns := ["y"; "t"]%string) in K. apply (filter_drop "y") with (ns := ["t"]%string) in K. apply (filter_drop "t") with (ns := []) in K.
        destruct (filter _ (filter _ (filter _ vars))) as [|kv l]; [reflexivity|]. exfalso. apply (K (fst kv)). left. reflexivity. }
      cbn in Z |- *. rewrite Z. reflexivity.
  Qed.
  Lemma set_xy v e a b s : holds fm s -> text_of fm v = Some e ->
    exists s1 s2 rest, mupDefineVar v "x" a s = Ret s1 /\ mupDefineVar v "y" b s1 = Ret s2 /\ holds fm s2 /\
      view s2 v = Some (Some (Parser e (consts fm v) (("y", b) :: ("x", a) :: rest)%string)) /\ incl (map fst rest) ["t"%string] /\
      (forall vars, view s v = Some (Some (Parser e (consts fm v) vars)) -> incl (map fst vars) ["x"; "y"]%string -> rest = []).
  Proof.
    intros H T. destruct (H) as [G W]. pose proof (W v) as Hv. rewrite T in Hv. destruct Hv as (vars & V & K).
    destruct (define_var fm v e vars "x" a s G V) as (s1 & E1 & G1 & V1); [cbn; tauto|].
    pose proof (V1 v) as W1. destruct (place_eq_dec v v) as [_|X] in W1; [|congruence].
    destruct (define_var fm v e _ "y" b s1 G1 W1) as (s2 & E2 & G2 & V2); [cbn; tauto|].
    pose proof (V2 v) as W2. destruct (place_eq_dec v v) as [_|X] in W2; [|congruence].
    exists s1, s2, (filter (fun kv => negb (String.eqb (fst kv) "y")) (filter (fun kv => negb (String.eqb (fst kv) "x")) vars)).
    split; [exact E1|]. split; [exact E2|]. split; [split; [exact G2|]|]. 2: split; [exact W2|]. 2: split.
    - intros w. destruct (place_eq_dec w v) as [-> | N].
      + rewrite T. eexists. split; [exact W2|]. cbn [map fst]. intros z [<- | Z]; [cbn; tauto|].
        apply (filter_names "y") with (ns := ["x"; "y"; "t"]%string) in Z; [exact Z|]. cbn [map fst]. intros z' [<- | Z']; [cbn; tauto|].
        apply (filter_names "x") with (ns := ["x"; "y"; "t"]%string) in Z'; [exact Z'|]. exact K.
      + rewrite V2, V1. destruct (place_eq_dec w v); [contradiction|]. exact (W w).
    - apply filter_drop. apply filter_drop. exact K.
    - intros vars' V' K'. assert (vars' = vars) by congruence. subst vars'.
      apply (filter_drop "x") with (ns := ["y"]%string) in K'. apply (filter_drop "y") with (ns := []) in K'.
      destruct (filter _ (filter _ vars)) as [|kv l]; [reflexivity|]. exfalso. apply (K' (fst kv)). left. reflexivity.
  Qed.

  (* Evaluating a function at [n] points and a time *)
  Definition evaluated (e : string) (vars : list string) (env : nat -> string -> option R) (n : nat) (values out : list R) : Prop :=
    length out = length values /\ (forall i, n <= i -> nth_error out i = nth_error values i) /\
    (understood parse e vars -> forall i, i < n -> exists r, meaning parse e (env i) = Some r /\ nth_error out i = Some r) /\
    (~ understood parse e vars -> out = values /\ forall i, meaning parse e (env i) = None).
  Lemma evaluated_known e vars env n values (g : nat -> R) : n <= length values -> understood parse e vars -> (forall i, i < n -> meaning parse e (env i) = Some (g i)) ->
    evaluated e vars env n values (map g (seq 0 n) ++ skipn n values).
  Proof.
    intros L U M. assert (Lm : length (map g (seq 0 n)) = n) by (rewrite map_length, seq_length; reflexivity).
    repeat split.
    - rewrite app_length, Lm, skipn_length. lia.
    - intros i Hi. rewrite nth_error_app2 by lia. rewrite Lm. rewrite <- (firstn_skipn n values) at 2. rewrite nth_error_app2 by (rewrite firstn_length; lia). rewrite firstn_length. rewrite Nat.min_l by lia. reflexivity.
    - intros _ i Hi. exists (g i). split; [apply M; exact Hi|]. rewrite nth_error_app1 by lia. rewrite nth_error_map.
      rewrite (nth_error_nth' (seq 0 n) 0) by (rewrite seq_length; lia). rewrite seq_nth by lia. reflexivity.
    - contradiction.
    - contradiction.
  Qed.

  Definition coord (l : list R) (i : nat) : R := nth i l 0%R.
  Lemma temporal_ok v e n x y time values s : holds fm s -> manufactured v = true -> text_of fm v = Some e ->
    n <= length x -> n <= length y -> n <= length values ->
    exists s' out, EvaluateTemporalSolution parse v n x y time values s = Ret (s', out) /\ holds fm s' /\
      evaluated e ["x"; "y"; "t"]%string (fun i => at_point fm (coord x i) (coord y i) time) n values out.
  Proof.
    intros H Mf T Lx Ly Lv. destruct (set_xyt v e (Some x) (Some y) (Some (repeat time n)) s H T) as (s1 & s2 & s3 & E1 & E2 & E3 & H3 & V3).
    unfold consts in V3. rewrite Mf in V3. set (p := Parser e _ _) in V3.
    assert (Lk : forall i s0, ~ In s0 (letters ++ ["x"; "y"; "t"]%string) -> lookup p i s0 = None).
    { intros i s0 N. unfold p. rewrite lookup_other by (intros X; apply N; apply in_or_app; auto).
      rewrite assoc_none; [reflexivity|]. cbn [map fst]. intros X. apply N. apply in_or_app. right. cbn in X |- *. tauto. }
    assert (Ev : exists out, mupEvalBulk parse v n values s3 = Ret out /\ evaluated e ["x"; "y"; "t"]%string (fun i => at_point fm (coord x i) (coord y i) time) n values out).
    { destruct (understood_dec parse e ["x"; "y"; "t"]%string) as [U|U].
      - pose proof U as (t & Et & It).
        assert (Ei : forall i, i < n -> exists r, eval_at parse p i = Ret r /\ meaning parse e (at_point fm (coord x i) (coord y i) time) = Some r).
        { intros i Hi. apply (eval_known parse p i _ t Et). intros s0 Hs. specialize (It s0 Hs). apply in_app_or in It.
          destruct (in_dec string_dec s0 letters) as [Il|Nl].
          - unfold p. rewrite !lookup_letter by exact Il. unfold at_point, constant. destruct (in_dec string_dec s0 letters); [|contradiction]. cbn [option_map]. split; [discriminate|]. eauto.
          - destruct It as [It|It]; [contradiction|]. unfold p. rewrite !lookup_other by exact Nl. unfold at_point, constant. destruct (in_dec string_dec s0 letters); [contradiction|].
            cbn [In] in It. destruct It as [<- | [<- | [<- | []]]].
            + cbn [assoc String.eqb Ascii.eqb Bool.eqb]. destruct (string_dec "x" "x"); [|congruence]. split; [discriminate|]. exists (coord x i). split; [|reflexivity]. unfold coord. rewrite (nth_error_nth' x 0%R) by lia. reflexivity.
            + cbn [assoc String.eqb Ascii.eqb Bool.eqb]. destruct (string_dec "y" "x"); [congruence|]. destruct (string_dec "y" "y"); [|congruence]. split; [discriminate|]. exists (coord y i). split; [|reflexivity]. unfold coord. rewrite (nth_error_nth' y 0%R) by lia. reflexivity.
            + cbn [assoc String.eqb Ascii.eqb Bool.eqb]. destruct (string_dec "t" "x"); [congruence|]. destruct (string_dec "t" "y"); [congruence|]. destruct (string_dec "t" "t"); [|congruence]. split; [discriminate|]. exists time. split; [|reflexivity].
              rewrite (nth_error_nth' (repeat time n) 0%R) by (rewrite repeat_length; lia). rewrite (nth_indep _ 0%R time) by (rewrite repeat_length; lia). rewrite nth_repeat. reflexivity. }
        set (g := fun i => match meaning parse e (at_point fm (coord x i) (coord y i) time) with Some r => r | None => 0%R end).
        exists (map g (seq 0 n) ++ skipn n values). split.
        + eapply bulk_known; [apply H3|exact V3|exact Lv|]. intros i Hi. destruct (Ei i Hi) as (r & Er & Mr). unfold g. rewrite Mr. exact Er.
        + apply evaluated_known; [exact Lv|exact U|]. intros i Hi. destruct (Ei i Hi) as (r & Er & Mr). unfold g. rewrite Mr. reflexivity.
      - exists values. split.
        + eapply bulk_unknown; [apply H3|exact V3|exact Lv|]. intros i. apply eval_unknown. intros t Et. destruct (not_understood parse e _ t U Et) as (s0 & Hs & N). exists s0. split; [exact Hs|]. apply Lk. exact N.
        + split; [reflexivity|]. split; [reflexivity|]. split; [contradiction|]. intros _. split; [reflexivity|]. intros i. unfold meaning. destruct (parse e) as [t|] eqn:Et; [|reflexivity]. cbn [obind].
          destruct (not_understood parse e _ t U Et) as (s0 & Hs & N). apply (value_unknown _ t s0 Hs).
          unfold at_point, constant. destruct (in_dec string_dec s0 letters) as [I|_]; [exfalso; apply N; apply in_or_app; auto|].
          destruct (string_dec s0 "x") as [-> | _]; [exfalso; apply N; apply in_or_app; cbn; tauto|]. destruct (string_dec s0 "y") as [-> | _]; [exfalso; apply N; apply in_or_app; cbn; tauto|].
          destruct (string_dec s0 "t") as [-> | _]; [exfalso; apply N; apply in_or_app; cbn; tauto|]. reflexivity. }
    destruct Ev as (out & Eb & Ev).
    destruct (define_holds fm v e "t" None s3 H3 T) as (s4 & E4 & H4); [cbn; tauto|].
    destruct (define_holds fm v e "x" None s4 H4 T) as (s5 & E5 & H5); [cbn; tauto|].
    destruct (define_holds fm v e "y" None s5 H5 T) as (s6 & E6 & H6); [cbn; tauto|].
    exists s6, out. unfold EvaluateTemporalSolution. rewrite E1. cbn [rbind]. rewrite E2. cbn [rbind]. rewrite E3. cbn [rbind]. rewrite Eb. cbn [rbind]. rewrite E4. cbn [rbind]. rewrite E5. cbn [rbind]. rewrite E6. auto.
  Qed.

  Lemma spatial_known v e n x y s2 rest : text_of fm v = Some e -> n <= length x -> n <= length y -> holds fm s2 ->
    view s2 v = Some (Some (Parser e (constants_list fm) (("y", Some y) :: ("x", Some x) :: rest)%string)) -> understood parse e ["x"; "y"]%string ->
    forall i, i < n -> exists r, eval_at parse (Parser e (constants_list fm) (("y", Some y) :: ("x", Some x) :: rest)%string) i = Ret r /\ meaning parse e (at_place fm (coord x i) (coord y i)) = Some r.
  Proof.
    intros T Lx Ly H V (t & Et & It) i Hi. apply (eval_known parse (Parser e _ _) i _ t Et). intros s0 Hs. specialize (It s0 Hs). apply in_app_or in It.
    destruct (in_dec string_dec s0 letters) as [Il|Nl].
    - rewrite !lookup_letter by exact Il. unfold at_place, constant. destruct (in_dec string_dec s0 letters); [|contradiction]. cbn [option_map]. split; [discriminate|]. eauto.
    - destruct It as [It|It]; [contradiction|]. rewrite !lookup_other by exact Nl. unfold at_place, constant. destruct (in_dec string_dec s0 letters); [contradiction|].
      cbn [In] in It. destruct It as [<- | [<- | []]].
      + cbn [assoc String.eqb Ascii.eqb Bool.eqb]. destruct (string_dec "x" "x"); [|congruence]. split; [discriminate|]. exists (coord x i). split; [|reflexivity]. unfold coord. rewrite (nth_error_nth' x 0%R) by lia. reflexivity.
      + cbn [assoc String.eqb Ascii.eqb Bool.eqb]. destruct (string_dec "y" "x"); [congruence|]. destruct (string_dec "y" "y"); [|congruence]. split; [discriminate|]. exists (coord y i). split; [|reflexivity]. unfold coord. rewrite (nth_error_nth' y 0%R) by lia. reflexivity.
  Qed.
  Lemma at_place_none e t x y : ~ understood parse e ["x"; "y"]%string -> parse e = Some t -> value (at_place fm x y) t = None.
  Proof.
    intros U Et. destruct (not_understood parse e _ t U Et) as (s0 & Hs & N). apply (value_unknown _ t s0 Hs).
    unfold at_place, constant. destruct (in_dec string_dec s0 letters) as [I|_]; [exfalso; apply N; apply in_or_app; auto|].
    destruct (string_dec s0 "x") as [-> | _]; [exfalso; apply N; apply in_or_app; cbn; tauto|]. destruct (string_dec s0 "y") as [-> | _]; [exfalso; apply N; apply in_or_app; cbn; tauto|]. reflexivity.
  Qed.
  Lemma spatial_unknown e x y rest i : incl (map fst rest) ["t"%string] -> (uses_time parse e -> rest = []) -> ~ understood parse e ["x"; "y"]%string ->
    eval_at parse (Parser e (constants_list fm) (("y", Some y) :: ("x", Some x) :: rest)%string) i = Error.
  Proof.
    intros Ir Ht U. apply eval_unknown. cbn [p_expr]. intros t Et. destruct (not_understood parse e _ t U Et) as (s0 & Hs & N). exists s0. split; [exact Hs|].
    rewrite lookup_other by (intros X; apply N; apply in_or_app; auto). rewrite assoc_none; [reflexivity|]. cbn [map fst]. intros [<- | [<- | X]].
    - apply N. apply in_or_app. cbn; tauto.
    - apply N. apply in_or_app. cbn; tauto.
    - pose proof (Ir s0 X) as [<- | []]. rewrite Ht in X; [destruct X|]. exists t. auto.
  Qed.
  Lemma spatial_ok v e n x y values s : holds fm s -> manufactured v = true -> text_of fm v = Some e -> ~ uses_time parse e \/ (exists vars, view s v = Some (Some (Parser e (consts fm v) vars)) /\ incl (map fst vars) ["x"; "y"]%string) ->
    n <= length x -> n <= length y -> n <= length values ->
    exists s' out, EvaluateSpatialSolution parse v n x y values s = Ret (s', out) /\ holds fm s' /\
      evaluated e ["x"; "y"]%string (fun i => at_place fm (coord x i) (coord y i)) n values out.
  Proof.
    intros H Mf T Nt Lx Ly Lv. destruct (set_xy v e (Some x) (Some y) s H T) as (s1 & s2 & rest & E1 & E2 & H2 & V2 & Ir & Er).
    unfold consts in V2. rewrite Mf in V2.
    assert (Hr : uses_time parse e -> rest = []) by (intros Ut; destruct Nt as [Nt | (vars & Vv & Iv)]; [contradiction|exact (Er vars Vv Iv)]).
    assert (Ev : exists out, mupEvalBulk parse v n values s2 = Ret out /\ evaluated e ["x"; "y"]%string (fun i => at_place fm (coord x i) (coord y i)) n values out).
    { destruct (understood_dec parse e ["x"; "y"]%string) as [U|U].
      - pose proof (spatial_known v e n x y s2 rest T Lx Ly H2 V2 U) as Ei.
        set (g := fun i => match meaning parse e (at_place fm (coord x i) (coord y i)) with Some r => r | None => 0%R end).
        exists (map g (seq 0 n) ++ skipn n values). split.
        + eapply bulk_known; [apply H2|exact V2|exact Lv|]. intros i Hi. destruct (Ei i Hi) as (r & Er' & Mr). unfold g. rewrite Mr. exact Er'.
        + apply evaluated_known; [exact Lv|exact U|]. intros i Hi. destruct (Ei i Hi) as (r & Er' & Mr). unfold g. rewrite Mr. reflexivity.
      - exists values. split.
        + eapply bulk_unknown; [apply H2|exact V2|exact Lv|]. intros i. apply spatial_unknown; assumption.
        + split; [reflexivity|]. split; [reflexivity|]. split; [contradiction|]. intros _. split; [reflexivity|]. intros i. unfold meaning. destruct (parse e) as [t|] eqn:Et; [|reflexivity]. cbn [obind].
          apply (at_place_none e t); assumption. }
    destruct Ev as (out & Eb & Ev).
    destruct (define_holds fm v e "x" None s2 H2 T) as (s5 & E5 & H5); [cbn; tauto|].
    destruct (define_holds fm v e "y" None s5 H5 T) as (s6 & E6 & H6); [cbn; tauto|].
    exists s6, out. unfold EvaluateSpatialSolution. rewrite E1. cbn [rbind]. rewrite E2. cbn [rbind]. rewrite Eb. cbn [rbind]. rewrite E5. cbn [rbind]. rewrite E6. auto.
  Qed.
End Evaluate.
