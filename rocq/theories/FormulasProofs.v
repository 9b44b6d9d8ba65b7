(** Lemmas on the storage of formulas: which parser each place points to. *)
From Coq Require Import String.
From Verif Require Import Base MeshMapsModel DataModel SetupModel GridModel FormulasModel.
Local Open Scope nat_scope.
Local Notation length := List.length.

(** ** What the places point to *)
Definition view (s : state) (v : place) : option (option parser) :=
  match pointer s v with None => None | Some k => Some (match nth_error (parsers s) k with Some p => p | None => None end) end.
Record good (s : state) : Prop := Good {
  g_inj : forall v w k, pointer s v = Some k -> pointer s w = Some k -> v = w;
  g_range : forall v k, pointer s v = Some k -> k < length (parsers s);
  g_onto : forall k, k < length (parsers s) -> exists v, pointer s v = Some k }.

Lemma initial_good : good initial.
Proof. split; cbn; [discriminate | discriminate | intros k H; lia]. Qed.

Lemma create_spec w s : good s -> view s w = None ->
  good (mupCreate w s) /\ forall v, view (mupCreate w s) v = if place_eq_dec v w then Some (Some (Parser "" [] [])) else view s v.
Proof.
  intros [I Rg O] Hn. assert (Hp : pointer s w = None) by (unfold view in Hn; destruct (pointer s w); [discriminate|reflexivity]).
  split.
  - split; cbn [mupCreate pointer parsers].
    + intros a b k Ha Hb. destruct (place_eq_dec a w) as [-> | Na], (place_eq_dec b w) as [-> | Nb]; [reflexivity| | |eauto].
      * injection Ha as <-. apply Rg in Hb. lia.
      * injection Hb as <-. apply Rg in Ha. lia.
    + intros a k Ha. rewrite app_length. cbn [List.length]. destruct (place_eq_dec a w); [injection Ha as <-; lia|]. apply Rg in Ha. lia.
    + intros k Hk. rewrite app_length in Hk. cbn [List.length] in Hk. destruct (Nat.eq_dec k (length (parsers s))) as [-> | Nk].
      * exists w. destruct (place_eq_dec w w); [reflexivity|congruence].
      * destruct (O k) as (v & Hv); [lia|]. exists v. destruct (place_eq_dec v w) as [-> | Nv]; [congruence|exact Hv].
  - intros v. unfold view. cbn [mupCreate pointer parsers]. destruct (place_eq_dec v w) as [-> | Nv].
    + rewrite nth_error_app2 by lia. rewrite Nat.sub_diag. reflexivity.
    + destruct (pointer s v) as [k|] eqn:Ek; [|reflexivity]. rewrite nth_error_app1 by (eapply Rg; exact Ek). reflexivity.
Qed.

Lemma upd_spec w k s x l : good s -> pointer s w = Some k -> upd (parsers s) k x = Some l ->
  good (State l (pointer s)) /\ forall v, view (State l (pointer s)) v = if place_eq_dec v w then Some x else view s v.
Proof.
  intros [I Rg O] Hp Hu. split.
  - split; cbn [pointer parsers]; [exact I | intros v j Hv; rewrite (upd_length _ _ _ _ Hu); eauto | intros j Hj; rewrite (upd_length _ _ _ _ Hu) in Hj; eauto].
  - intros v. unfold view. cbn [pointer parsers]. destruct (place_eq_dec v w) as [-> | Nv].
    + rewrite Hp. rewrite (upd_get _ _ _ _ k Hu), Nat.eqb_refl. reflexivity.
    + destruct (pointer s v) as [j|] eqn:Ej; [|reflexivity]. rewrite (upd_get _ _ _ _ j Hu).
      destruct (Nat.eqb j k) eqn:Ejk; [|reflexivity]. apply Nat.eqb_eq in Ejk. subst j. exfalso. apply Nv. eapply I; eauto.
Qed.

Lemma view_pointer s w p : good s -> view s w = Some (Some p) -> exists k, pointer s w = Some k /\ nth_error (parsers s) k = Some (Some p).
Proof.
  intros G H. unfold view in H. destruct (pointer s w) as [k|] eqn:Ek; [|discriminate]. exists k. split; [reflexivity|].
  destruct (nth_error (parsers s) k) as [q|]; [|discriminate]. congruence.
Qed.

Lemma edit_spec w f s p : good s -> view s w = Some (Some p) ->
  exists s', edit w f s = Ret s' /\ good s' /\ forall v, view s' v = if place_eq_dec v w then Some (Some (f p)) else view s v.
Proof.
  intros G H. destruct (view_pointer _ _ _ G H) as (k & Hp & Hn).
  destruct (upd_some (parsers s) k (Some (f p))) as (l & Hu); [apply nth_error_Some; congruence|].
  exists (State l (pointer s)). unfold edit. rewrite Hp, Hn, Hu. split; [reflexivity|]. eapply upd_spec; eauto.
Qed.

Lemma release_spec w s p : good s -> view s w = Some (Some p) ->
  exists s', mupRelease w s = Ret s' /\ good s' /\ forall v, view s' v = if place_eq_dec v w then Some None else view s v.
Proof.
  intros G H. destruct (view_pointer _ _ _ G H) as (k & Hp & Hn).
  destruct (upd_some (parsers s) k None) as (l & Hu); [apply nth_error_Some; congruence|].
  exists (State l (pointer s)). unfold mupRelease. rewrite Hp, Hn, Hu. split; [reflexivity|]. eapply upd_spec; eauto.
Qed.
Lemma release_null w s : view s w = None -> mupRelease w s = Ret s.
Proof. unfold view, mupRelease. destruct (pointer s w); [discriminate|reflexivity]. Qed.
Lemma deref_spec w s p : good s -> view s w = Some (Some p) -> deref w s = Ret p.
Proof. intros G H. destruct (view_pointer _ _ _ G H) as (k & Hp & Hn). unfold deref. rewrite Hp, Hn. reflexivity. Qed.

(** ** Loops that give places their parsers *)
Definition table := list (place * parser).
Fixpoint jassoc (v : place) (js : table) : option parser :=
  match js with [] => None | (w, p) :: t => if place_eq_dec v w then Some p else jassoc v t end.
Definition put (js : table) (g : place -> option (option parser)) (v : place) : option (option parser) :=
  match jassoc v js with Some p => Some (Some p) | None => g v end.
Definition defines (F : state -> result state) (js : table) : Prop :=
  forall s, good s -> (forall w, In w (map fst js) -> view s w = None) ->
    exists s', F s = Ret s' /\ good s' /\ forall v, view s' v = put js (view s) v.

Lemma jassoc_app v a b : jassoc v (a ++ b) = match jassoc v a with Some p => Some p | None => jassoc v b end.
Proof. induction a as [|[w p] a IH]; cbn [jassoc app]; [reflexivity|]. destruct (place_eq_dec v w); [reflexivity|exact IH]. Qed.
Lemma jassoc_none v js : ~ In v (map fst js) -> jassoc v js = None.
Proof. induction js as [|[w p] t IH]; cbn [jassoc map fst In]; intros H; [reflexivity|]. destruct (place_eq_dec v w); [subst; tauto|]. apply IH. tauto. Qed.
Lemma jassoc_in v p js : NoDup (map fst js) -> In (v, p) js -> jassoc v js = Some p.
Proof.
  induction js as [|[w q] t IH]; cbn [jassoc map fst In]; intros D H; [tauto|]. inversion D; subst.
  destruct H as [H | H]; [injection H as -> ->; destruct (place_eq_dec v v); congruence|].
  destruct (place_eq_dec v w) as [-> | N]; [|auto]. exfalso. apply H2. apply in_map_iff. exists (w, p). auto.
Qed.

Lemma defines_ext F G js : (forall s, F s = G s) -> defines F js -> defines G js.
Proof. intros E D s g f. rewrite <- E. apply D; assumption. Qed.
Lemma defines_ret : defines Ret [].
Proof. intros s G _. exists s. repeat split; try assumption; apply G. Qed.
Lemma NoDup_app_inv {A} (a b : list A) : NoDup (a ++ b) -> NoDup a /\ NoDup b /\ forall x, In x a -> ~ In x b.
Proof.
  induction a as [|x a IH]; cbn [app]; intros H; [repeat split; [constructor|exact H|intros ? []]|].
  inversion H; subst. destruct (IH H3) as (Na & Nb & D). repeat split; [|exact Nb|].
  - constructor; [|exact Na]. intros X. apply H2. apply in_or_app. auto.
  - intros y [<- | Hy]; [|apply D; exact Hy]. intros X. apply H2. apply in_or_app. auto.
Qed.
Lemma NoDup_app_intro {A} (a b : list A) : NoDup a -> NoDup b -> (forall x, In x a -> ~ In x b) -> NoDup (a ++ b).
Proof.
  induction a as [|x a IH]; cbn [app]; intros Na Nb D; [exact Nb|]. inversion Na; subst. constructor.
  - intros X. apply in_app_or in X. destruct X as [X | X]; [tauto|]. apply (D x); [left; reflexivity|exact X].
  - apply IH; [assumption|assumption|]. intros y Hy. apply D. right. exact Hy.
Qed.

Lemma defines_seq F G a b : NoDup (map fst (a ++ b)) -> defines F a -> defines G b -> defines (fun s => let! s := F s in G s) (a ++ b).
Proof.
  intros D HF HG s g fr. rewrite map_app in *. destruct (NoDup_app_inv _ _ D) as (Da & Db & Dab).
  destruct (HF s g) as (s1 & E1 & g1 & V1); [intros w Hw; apply fr; apply in_or_app; auto|].
  destruct (HG s1 g1) as (s2 & E2 & g2 & V2).
  { intros w Hw. rewrite V1. unfold put. rewrite jassoc_none; [apply fr; apply in_or_app; auto|]. intros X. exact (Dab w X Hw). }
  exists s2. rewrite E1. cbn [rbind]. split; [exact E2|]. split; [exact g2|]. intros v. rewrite V2. unfold put. rewrite jassoc_app, V1. unfold put.
  destruct (jassoc v a) eqn:Ea; [|reflexivity]. destruct (jassoc v b) eqn:Eb; [|reflexivity]. exfalso.
  assert (In v (map fst a)) by (destruct (in_dec place_eq_dec v (map fst a)); [assumption|rewrite jassoc_none in Ea by assumption; discriminate]).
  assert (In v (map fst b)) by (destruct (in_dec place_eq_dec v (map fst b)); [assumption|rewrite (jassoc_none v b) in Eb by assumption; discriminate]).
  exact (Dab v H H0).
Qed.
Lemma defines_rfold {A} (f : state -> A -> result state) (js : A -> table) l :
  NoDup (map fst (flat_map js l)) -> (forall a, In a l -> defines (fun s => f s a) (js a)) -> defines (rfold f l) (flat_map js l).
Proof.
  induction l as [|a l IH]; intros D H; [exact defines_ret|].
  cbn [flat_map]. apply (defines_ext (fun s => let! s := f s a in rfold f l s)); [reflexivity|].
  apply defines_seq; [exact D|apply H; left; reflexivity|].
  apply IH; [|intros b Hb; apply H; right; exact Hb]. cbn [flat_map] in D. rewrite map_app in D. apply NoDup_app_inv in D. apply D.
Qed.
Lemma defines_when (b : bool) F js : (b = true -> defines F js) -> defines (when b F) (if b then js else []).
Proof. destruct b; intros H; [exact (H eq_refl)|exact defines_ret]. Qed.

(** ** Distinctness of the places of a loop *)
Lemma map_fst_flat_map {A} (js : A -> table) l : map fst (flat_map js l) = flat_map (fun a => map fst (js a)) l.
Proof. induction l as [|a l IH]; cbn [flat_map map]; [reflexivity|]. rewrite map_app, IH. reflexivity. Qed.
Lemma NoDup_flat_map_key {A} (f : A -> list place) (key : A -> nat) (kx : place -> nat) l :
  (forall a x, In x (f a) -> kx x = key a) -> NoDup (map key l) -> (forall a, NoDup (f a)) -> NoDup (flat_map f l).
Proof.
  intros K D N. induction l as [|a l IH]; cbn [flat_map map] in *; [constructor|]. inversion D; subst.
  apply NoDup_app_intro; [apply N|apply IH; assumption|]. intros x Hx X. apply in_flat_map in X. destruct X as (b & Hb & Hxb).
  apply H1. apply in_map_iff. exists b. split; [|exact Hb]. rewrite <- (K a x Hx), <- (K b x Hxb). reflexivity.
Qed.
Lemma enum_fst {A} (l : list A) : map fst (enum l) = seq 0 (length l).
Proof.
  unfold enum. generalize 0. induction l as [|a l IH]; intros n; cbn [List.length seq combine map fst]; [reflexivity|]. rewrite IH. reflexivity.
Qed.
Lemma enum_in {A} (l : list A) i a : In (i, a) (enum l) <-> nth_error l i = Some a.
Proof.
  unfold enum. assert (G : forall n, In (n + i, a) (combine (seq n (length l)) l) <-> nth_error l i = Some a).
  { revert i. induction l as [|b l IH]; intros i n; cbn [List.length seq combine In].
    - destruct i; cbn; split; intros H; [tauto|discriminate|tauto|discriminate].
    - destruct i as [|i]; cbn [nth_error].
      + rewrite Nat.add_0_r. split; [intros [H|H]; [congruence|]|intros H; left; congruence].
        apply in_combine_l in H. apply in_seq in H. lia.
      + rewrite <- (IH i (S n)). replace (n + S i) with (S n + i) by lia. split; [intros [H|H]; [injection H; lia|exact H]|auto]. }
  exact (G 0).
Qed.

(** ** The parsers made from a configuration *)
Definition constants_list (fm : formulas) : list (string * R) := rev (map (fun nm => (fst nm, constants_of fm (snd nm))) constant_names).

Lemma set_new w e : defines (fun s => mupSetExpr w e (mupCreate w s)) [(w, Parser e [] [])].
Proof.
  intros s G F. destruct (create_spec w s G) as (G1 & V1); [apply F; left; reflexivity|].
  destruct (edit_spec w (fun p => Parser e (p_consts p) (p_vars p)) (mupCreate w s) (Parser "" [] [])) as (s2 & E2 & G2 & V2); [exact G1|rewrite V1; destruct (place_eq_dec w w); congruence|].
  exists s2. split; [exact E2|]. split; [exact G2|]. intros v. rewrite V2. unfold put. cbn [jassoc p_consts p_vars].
  destruct (place_eq_dec v w); [reflexivity|]. rewrite V1. destruct (place_eq_dec v w); [contradiction|reflexivity].
Qed.

Lemma define_constants fm w l : forall s e cs, good s -> view s w = Some (Some (Parser e cs [])) ->
  exists s', rfold (fun s nm => mupDefineConst w (fst nm) (constants_of fm (snd nm)) s) l s = Ret s' /\ good s' /\
    forall v, view s' v = if place_eq_dec v w then Some (Some (Parser e (rev (map (fun nm => (fst nm, constants_of fm (snd nm))) l) ++ cs) [])) else view s v.
Proof.
  induction l as [|[nm mb] l IH]; intros s e cs G H.
  - exists s. split; [reflexivity|]. split; [exact G|]. intros v. destruct (place_eq_dec v w) as [-> | N]; [exact H|reflexivity].
  - destruct (edit_spec w (fun p => Parser (p_expr p) ((nm, constants_of fm mb) :: p_consts p) (p_vars p)) s _ G H) as (s1 & E1 & G1 & V1).
    cbn [p_expr p_consts p_vars] in V1.
    destruct (IH s1 e ((nm, constants_of fm mb) :: cs) G1) as (s2 & E2 & G2 & V2); [rewrite V1; destruct (place_eq_dec w w); congruence|].
    exists s2. cbn [rfold fst snd]. change (mupDefineConst w nm (constants_of fm mb) s) with (edit w (fun p => Parser (p_expr p) ((nm, constants_of fm mb) :: p_consts p) (p_vars p)) s).
    rewrite E1. cbn [rbind]. split; [exact E2|]. split; [exact G2|].
    intros v. rewrite V2. cbn [map rev fst snd]. rewrite <- app_assoc. cbn [app]. destruct (place_eq_dec v w); [reflexivity|]. rewrite V1. destruct (place_eq_dec v w); [contradiction|reflexivity].
Qed.
Lemma define_function_defines fm w e : defines (define_function fm w e) [(w, Parser e (constants_list fm) [])].
Proof.
  intros s G F. destruct (set_new w e s G F) as (s1 & E1 & G1 & V1). unfold define_function. rewrite E1. cbn [rbind].
  destruct (define_constants fm w constant_names s1 e [] G1) as (s2 & E2 & G2 & V2).
  { rewrite V1. unfold put. cbn [jassoc]. destruct (place_eq_dec w w); congruence. }
  exists s2. split; [exact E2|]. split; [exact G2|]. intros v. rewrite V2. unfold put. cbn [jassoc]. rewrite app_nil_r. unfold constants_list.
  destruct (place_eq_dec v w); [reflexivity|]. rewrite V1. unfold put. cbn [jassoc]. destruct (place_eq_dec v w); [contradiction|reflexivity].
Qed.

Definition swe_jobs fm : table := flat_map (fun f => [(PSwe f, Parser (fm_swe fm f) (constants_list fm) [])]) swe_functions.
Definition sediment_jobs fm : table :=
  flat_map (fun i => flat_map (fun k => [(PSediment i k, Parser (fm_sediment fm i k) (constants_list fm) [])]) tracer_functions) (seq 0 (fm_classes fm)).
Definition salinity_jobs fm : table := flat_map (fun k => [(PSalinity k, Parser (fm_salinity fm k) (constants_list fm) [])]) tracer_functions.
Definition heat_jobs fm : table := flat_map (fun k => [(PHeat k, Parser (fm_heat fm k) (constants_list fm) [])]) tracer_functions.
Definition material_jobs fm : table := flat_map (fun me => if given (snd me) then [(PManning (fst me), Parser (snd me) [] [])] else []) (enum (fm_materials fm)).
Definition flow_jobs fm : table :=
  flat_map (fun cf => [(PHeight (fst cf), Parser (ff_height (snd cf)) [] []); (PXMomentum (fst cf), Parser (ff_xmom (snd cf)) [] []);
                       (PYMomentum (fst cf), Parser (ff_ymom (snd cf)) [] []); (PValue (fst cf), Parser (ff_value (snd cf)) [] [])]) (enum (fm_flow fm)).
Definition class_jobs fm : table :=
  flat_map (fun cl => flat_map (fun i => [(PClass (fst cl) i, Parser (nth i (snd cl) ""%string) [] [])]) (seq 0 (fm_classes fm))) (enum (fm_sediment_conditions fm)).
Definition concentration_jobs fm : table := flat_map (fun ce => [(PConcentration (fst ce), Parser (snd ce) [] [])]) (enum (fm_salinity_conditions fm)).
Definition jobs fm : table :=
  (if given (fm_swe fm F_h) then swe_jobs fm else []) ++ (if Nat.ltb 0 (fm_classes fm) then sediment_jobs fm else []) ++
  (if fm_has_salinity fm then salinity_jobs fm else []) ++ (if fm_has_heat fm then heat_jobs fm else []) ++
  material_jobs fm ++ flow_jobs fm ++ class_jobs fm ++ concentration_jobs fm.

(* which loop a place belongs to *)
Definition kind (v : place) : nat :=
  match v with PSwe _ => 0 | PSediment _ _ => 1 | PSalinity _ => 2 | PHeat _ => 3 | PManning _ => 4 | PHeight _ | PXMomentum _ | PYMomentum _ | PValue _ => 5 | PClass _ _ => 6 | PConcentration _ => 7 | PTemperature _ => 8 end.
Definition index (v : place) : nat :=
  match v with PSediment i _ => i | PManning c | PHeight c | PXMomentum c | PYMomentum c | PValue c | PClass c _ | PConcentration c => c | _ => 0 end.
Definition index2 (v : place) : nat := match v with PClass _ i => i | _ => 0 end.
Definition tidx (k : tracer_function) : nat := match k with T_value => 0 | T_dx => 1 | T_dy => 2 | T_dt => 3 end.

Lemma nodup_swe fm : NoDup (map fst (swe_jobs fm)).
Proof. cbn. repeat (constructor; [cbn; intuition discriminate|]). constructor. Qed.
Lemma nodup_sal fm : NoDup (map fst (salinity_jobs fm)).
Proof. cbn. repeat (constructor; [cbn; intuition discriminate|]). constructor. Qed.
Lemma nodup_heat fm : NoDup (map fst (heat_jobs fm)).
Proof. cbn. repeat (constructor; [cbn; intuition discriminate|]). constructor. Qed.
Lemma nodup_sed fm : NoDup (map fst (sediment_jobs fm)).
Proof.
  unfold sediment_jobs. rewrite map_fst_flat_map. apply (NoDup_flat_map_key _ (fun i => i) index).
  - intros i x Hx. cbn in Hx. intuition (subst; reflexivity).
  - rewrite map_id. apply seq_NoDup.
  - intros i. cbn. repeat (constructor; [cbn; intuition discriminate|]). constructor.
Qed.
Lemma nodup_mat fm : NoDup (map fst (material_jobs fm)).
Proof.
  unfold material_jobs. rewrite map_fst_flat_map. apply (NoDup_flat_map_key _ fst index).
  - intros a x Hx. destruct (given (snd a)); cbn in Hx; intuition (subst; reflexivity).
  - rewrite enum_fst. apply seq_NoDup.
  - intros a. destruct (given (snd a)); cbn; repeat (constructor; [cbn; tauto|]); constructor.
Qed.
Lemma nodup_flow fm : NoDup (map fst (flow_jobs fm)).
Proof.
  unfold flow_jobs. rewrite map_fst_flat_map. apply (NoDup_flat_map_key _ fst index).
  - intros a x Hx. cbn in Hx. intuition (subst; reflexivity).
  - rewrite enum_fst. apply seq_NoDup.
  - intros a. cbn. repeat (constructor; [cbn; intuition discriminate|]). constructor.
Qed.
Lemma nodup_class_row n cl : NoDup (map fst (flat_map (fun i => [(PClass (fst cl : nat) i, Parser (nth i (snd cl) ""%string) [] [])]) (seq 0 n))).
Proof.
  rewrite map_fst_flat_map. apply (NoDup_flat_map_key _ (fun i => i) index2).
  - intros i x Hx. cbn in Hx. intuition (subst; reflexivity).
  - rewrite map_id. apply seq_NoDup.
  - intros i. cbn. constructor; [cbn; tauto|constructor].
Qed.
Lemma nodup_class fm : NoDup (map fst (class_jobs fm)).
Proof.
  unfold class_jobs. rewrite map_fst_flat_map. apply (NoDup_flat_map_key _ fst index).
  - intros a x Hx. rewrite map_fst_flat_map in Hx. apply in_flat_map in Hx. destruct Hx as (i & _ & Hx). cbn in Hx. intuition (subst; reflexivity).
  - rewrite enum_fst. apply seq_NoDup.
  - intros a. apply nodup_class_row.
Qed.
Lemma nodup_conc fm : NoDup (map fst (concentration_jobs fm)).
Proof.
  unfold concentration_jobs. rewrite map_fst_flat_map. apply (NoDup_flat_map_key _ fst index).
  - intros a x Hx. cbn in Hx. intuition (subst; reflexivity).
  - rewrite enum_fst. apply seq_NoDup.
  - intros a. cbn. constructor; [cbn; tauto|constructor].
Qed.
Lemma in_map_flat {A} (js : A -> table) l v : In v (map fst (flat_map js l)) -> exists a, In a l /\ In v (map fst (js a)).
Proof. rewrite map_fst_flat_map. intros H. apply in_flat_map in H. exact H. Qed.
Lemma kind_swe fm v : In v (map fst (swe_jobs fm)) -> kind v = 0.
Proof. intros H. apply in_map_flat in H. destruct H as (a & _ & H). cbn in H. intuition (subst; reflexivity). Qed.
Lemma kind_sed fm v : In v (map fst (sediment_jobs fm)) -> kind v = 1.
Proof. intros H. apply in_map_flat in H. destruct H as (a & _ & H). cbn in H. intuition (subst; reflexivity). Qed.
Lemma kind_sal fm v : In v (map fst (salinity_jobs fm)) -> kind v = 2.
Proof. intros H. apply in_map_flat in H. destruct H as (a & _ & H). cbn in H. intuition (subst; reflexivity). Qed.
Lemma kind_heat fm v : In v (map fst (heat_jobs fm)) -> kind v = 3.
Proof. intros H. apply in_map_flat in H. destruct H as (a & _ & H). cbn in H. intuition (subst; reflexivity). Qed.
Lemma kind_mat fm v : In v (map fst (material_jobs fm)) -> kind v = 4.
Proof. intros H. apply in_map_flat in H. destruct H as (a & _ & H). destruct (given (snd a)); cbn in H; intuition (subst; reflexivity). Qed.
Lemma kind_flow fm v : In v (map fst (flow_jobs fm)) -> kind v = 5.
Proof. intros H. apply in_map_flat in H. destruct H as (a & _ & H). cbn in H. intuition (subst; reflexivity). Qed.
Lemma kind_class fm v : In v (map fst (class_jobs fm)) -> kind v = 6.
Proof. intros H. apply in_map_flat in H. destruct H as (a & _ & H). apply in_map_flat in H. destruct H as (i & _ & H). cbn in H. intuition (subst; reflexivity). Qed.
Lemma kind_conc fm v : In v (map fst (concentration_jobs fm)) -> kind v = 7.
Proof. intros H. apply in_map_flat in H. destruct H as (a & _ & H). cbn in H. intuition (subst; reflexivity). Qed.
Lemma kind_if (b : bool) (js : table) n v : (In v (map fst js) -> kind v = n) -> In v (map fst (if b then js else [])) -> kind v = n.
Proof. destruct b; cbn; tauto. Qed.
Lemma nodup_if (b : bool) (js : table) : NoDup (map fst js) -> NoDup (map fst (if b then js else [])).
Proof. destruct b; [tauto|]. intros _. constructor. Qed.

Ltac kinds H :=
  repeat (rewrite map_app in H; apply in_app_or in H; destruct H as [H|H]);
  first [ apply kind_conc in H | apply kind_class in H | apply kind_flow in H | apply kind_mat in H
        | apply (kind_if _ _ 3) in H; [|apply kind_heat] | apply (kind_if _ _ 2) in H; [|apply kind_sal] | apply (kind_if _ _ 1) in H; [|apply kind_sed] | apply (kind_if _ _ 0) in H; [|apply kind_swe] ].
Ltac nodup_step :=
  rewrite map_app; apply NoDup_app_intro;
  [first [apply nodup_if; first [apply nodup_swe | apply nodup_sed | apply nodup_sal | apply nodup_heat] | apply nodup_mat | apply nodup_flow | apply nodup_class]
  | | let x := fresh in let a := fresh in let b := fresh in intros x a b; kinds a; kinds b; congruence].
Lemma nodup_tail7 fm : NoDup (map fst (concentration_jobs fm)). Proof. apply nodup_conc. Qed.
Lemma nodup_tail6 fm : NoDup (map fst (class_jobs fm ++ concentration_jobs fm)). Proof. nodup_step. apply nodup_tail7. Qed.
Lemma nodup_tail5 fm : NoDup (map fst (flow_jobs fm ++ class_jobs fm ++ concentration_jobs fm)). Proof. nodup_step. apply nodup_tail6. Qed.
Lemma nodup_tail4 fm : NoDup (map fst (material_jobs fm ++ flow_jobs fm ++ class_jobs fm ++ concentration_jobs fm)). Proof. nodup_step. apply nodup_tail5. Qed.
Lemma nodup_tail3 fm : NoDup (map fst ((if fm_has_heat fm then heat_jobs fm else []) ++ material_jobs fm ++ flow_jobs fm ++ class_jobs fm ++ concentration_jobs fm)).
Proof. nodup_step. apply nodup_tail4. Qed.
Lemma nodup_tail2 fm : NoDup (map fst ((if fm_has_salinity fm then salinity_jobs fm else []) ++ (if fm_has_heat fm then heat_jobs fm else []) ++ material_jobs fm ++ flow_jobs fm ++ class_jobs fm ++ concentration_jobs fm)).
Proof. nodup_step. apply nodup_tail3. Qed.
Lemma nodup_tail1 fm : NoDup (map fst ((if Nat.ltb 0 (fm_classes fm) then sediment_jobs fm else []) ++ (if fm_has_salinity fm then salinity_jobs fm else []) ++ (if fm_has_heat fm then heat_jobs fm else []) ++ material_jobs fm ++ flow_jobs fm ++ class_jobs fm ++ concentration_jobs fm)).
Proof. nodup_step. apply nodup_tail2. Qed.
Lemma nodup_jobs fm : NoDup (map fst (jobs fm)).
Proof. unfold jobs. nodup_step. apply nodup_tail1. Qed.

Lemma parse_flow_defines cf : defines (fun s => parse_flow s cf)
  [(PHeight (fst cf), Parser (ff_height (snd cf)) [] []); (PXMomentum (fst cf), Parser (ff_xmom (snd cf)) [] []);
   (PYMomentum (fst cf), Parser (ff_ymom (snd cf)) [] []); (PValue (fst cf), Parser (ff_value (snd cf)) [] [])].
Proof.
  destruct cf as [c ff]. cbn [fst snd]. intros s G F. unfold parse_flow. cbn [fst snd].
  assert (F1 : view s (PHeight c) = None) by (apply F; cbn; auto). assert (F2 : view s (PXMomentum c) = None) by (apply F; cbn; auto).
  assert (F3 : view s (PYMomentum c) = None) by (apply F; cbn; auto). assert (F4 : view s (PValue c) = None) by (apply F; cbn; auto).
  destruct (set_new (PHeight c) (ff_height ff) s G) as (s1 & E1 & G1 & V1). { intros w [<- | []]. exact F1. }
  rewrite E1. cbn [rbind]. unfold put in V1. cbn [jassoc] in V1.
  destruct (create_spec (PXMomentum c) s1 G1) as (G2 & V2). { rewrite V1. destruct (place_eq_dec _ _); [discriminate|exact F2]. }
  destruct (create_spec (PYMomentum c) _ G2) as (G3 & V3). { rewrite V2, V1. repeat (destruct (place_eq_dec _ _); [discriminate|]). exact F3. }
  destruct (create_spec (PValue c) _ G3) as (G4 & V4). { rewrite V3, V2, V1. repeat (destruct (place_eq_dec _ _); [discriminate|]). exact F4. }
  set (s4 := mupCreate (PValue c) _) in *. clearbody s4.
  destruct (edit_spec (PXMomentum c) (fun p => Parser (ff_xmom ff) (p_consts p) (p_vars p)) s4 (Parser "" [] [])) as (s5 & E5 & G5 & V5); [exact G4| |].
  { rewrite V4, V3, V2. repeat (destruct (place_eq_dec _ _); [discriminate|]). destruct (place_eq_dec (PXMomentum c) (PXMomentum c)); congruence. }
  unfold mupSetExpr. rewrite E5. cbn [rbind p_consts p_vars] in *.
  destruct (edit_spec (PYMomentum c) (fun p => Parser (ff_ymom ff) (p_consts p) (p_vars p)) s5 (Parser "" [] [])) as (s6 & E6 & G6 & V6); [exact G5| |].
  { rewrite V5, V4, V3. repeat (destruct (place_eq_dec _ _); [discriminate|]). destruct (place_eq_dec (PYMomentum c) (PYMomentum c)); congruence. }
  rewrite E6. cbn [rbind p_consts p_vars] in *.
  destruct (edit_spec (PValue c) (fun p => Parser (ff_value ff) (p_consts p) (p_vars p)) s6 (Parser "" [] [])) as (s7 & E7 & G7 & V7); [exact G6| |].
  { rewrite V6, V5, V4. repeat (destruct (place_eq_dec _ _); [discriminate|]). destruct (place_eq_dec (PValue c) (PValue c)); congruence. }
  exists s7. split; [exact E7|]. split; [exact G7|]. cbn [p_consts p_vars] in *. intros v. rewrite V7, V6, V5, V4, V3, V2, V1. unfold put. cbn [jassoc].
  repeat (destruct (place_eq_dec _ _)); congruence.
Qed.

Lemma parse_defines fm : defines (ParseMathExpressions fm) (jobs fm).
Proof.
  unfold ParseMathExpressions, jobs.
  assert (T7 : defines (rfold parse_salinity (enum (fm_salinity_conditions fm))) (concentration_jobs fm)).
  { apply defines_rfold; [apply nodup_conc|]. intros [c e] _. apply set_new. }
  assert (T6 : defines (rfold (parse_sediment fm) (enum (fm_sediment_conditions fm))) (class_jobs fm)).
  { apply defines_rfold; [apply nodup_class|]. intros [c l] _. apply (defines_rfold _ (fun i => [(PClass c i, Parser (nth i l ""%string) [] [])])).
    - exact (nodup_class_row (fm_classes fm) (c, l)).
    - intros i _. apply set_new. }
  assert (T5 : defines (rfold parse_flow (enum (fm_flow fm))) (flow_jobs fm)).
  { apply defines_rfold; [apply nodup_flow|]. intros cf _. apply parse_flow_defines. }
  assert (T4 : defines (rfold parse_material (enum (fm_materials fm))) (material_jobs fm)).
  { apply defines_rfold; [apply nodup_mat|]. intros [m e] _. cbn [fst snd]. apply (defines_when (given e)). intros _. apply set_new. }
  assert (T3 : defines (when (fm_has_heat fm) (ParseTemperatureManufacturedSolutions fm)) (if fm_has_heat fm then heat_jobs fm else [])).
  { apply defines_when. intros _. apply defines_rfold; [apply nodup_heat|]. intros k _. apply define_function_defines. }
  assert (T2 : defines (when (fm_has_salinity fm) (ParseSalinityManufacturedSolutions fm)) (if fm_has_salinity fm then salinity_jobs fm else [])).
  { apply defines_when. intros _. apply defines_rfold; [apply nodup_sal|]. intros k _. apply define_function_defines. }
  assert (T1 : defines (when (Nat.ltb 0 (fm_classes fm)) (ParseSedimentManufacturedSolutions fm)) (if Nat.ltb 0 (fm_classes fm) then sediment_jobs fm else [])).
  { apply defines_when. intros _. apply defines_rfold; [apply nodup_sed|]. intros i _.
    apply (defines_rfold _ (fun k => [(PSediment i k, Parser (fm_sediment fm i k) (constants_list fm) [])])).
    - cbn. repeat (constructor; [cbn; intuition discriminate|]). constructor.
    - intros k _. apply define_function_defines. }
  assert (T0 : defines (when (given (fm_swe fm F_h)) (ParseSWEManufacturedSolutions fm)) (if given (fm_swe fm F_h) then swe_jobs fm else [])).
  { apply defines_when. intros _. apply defines_rfold; [apply nodup_swe|]. intros f _. apply define_function_defines. }
  apply defines_seq; [apply nodup_jobs|exact T0|]. apply defines_seq; [apply nodup_tail1|exact T1|].
  apply defines_seq; [apply nodup_tail2|exact T2|]. apply defines_seq; [apply nodup_tail3|exact T3|].
  apply defines_seq; [apply nodup_tail4|exact T4|]. apply defines_seq; [apply nodup_tail5|exact T5|].
  apply defines_seq; [apply nodup_tail6|exact T6|]. exact T7.
Qed.
