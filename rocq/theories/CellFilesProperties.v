(** C92: values given for every cell in a file reach that cell, and a file of elevations is the bed of a run. *)
From Coq Require Import String.
From Verif Require Import SetupModel CheckpointModel GridModel GridProofs GridProperties QueriesModel FortranDriverModel.
From Verif Require Import Base RoeModel EdgeModel HRModel HRProperties SourceModel AssemblyModel AssemblyProofs DecompModel DecompSpec DecompProperties MeshMapsProofs AMRProofs ConservationProperties
  CeedLayoutModel CeedLayoutSpec CeedLayoutProofs CeedLayoutProperties CeedMusclProofs CeedHRModel CeedHRSpec CeedHRProofs CeedHRProperties
  CeedRunModel CeedRunSpec CeedRunProofs CeedRunProperties PetscRunModel PetscRunSpec PetscRunProofs PetscRunProperties CellFilesModel.
Local Open Scope nat_scope.
Local Notation length := List.length.

(* the values of cell [c] in a file with [n] values for each cell *)
Definition entry (n : nat) (file : list R) (c : nat) : list R := firstn n (skipn (c * n) file).

(* The cells are numbered as in the grid file, 0 to N - 1; every cell is owned by one process; the processes know where
   the values of their cells come from.  Nothing is asked of the other data. *)
Record numbered_as_file (N : nat) (ps : list cprocess) : Prop := {
  nf_cells : Permutation (List.concat (layout ps)) (seq 0 N);
  nf_sf : forall p c, In p ps -> c < cm_cells (cp_mesh p) ->
    exists gs, nth_error (layout ps) (fst (cp_sf p c)) = Some gs /\ nth_error gs (snd (cp_sf p c)) = Some (cp_gid p c) }.

Lemma concat_skip {A} (l : list (list A)) sizes : map (@List.length A) l = sizes -> parts sizes (List.concat l) = l.
Proof.
  revert sizes. induction l as [|x l IH]; intros sizes <-; cbn [map parts List.concat]; [reflexivity|].
  rewrite firstn_app, Nat.sub_diag, firstn_all, firstn_O, app_nil_r. rewrite skipn_app, skipn_all, Nat.sub_diag. cbn [app skipn]. rewrite IH by reflexivity. reflexivity.
Qed.
Lemma concat_concat {A} (l : list (list (list A))) : List.concat (map (@List.concat A) l) = List.concat (List.concat l).
Proof. induction l as [|x l IH]; cbn [map List.concat]; [reflexivity|]. rewrite concat_app, IH. reflexivity. Qed.
Lemma entry_fetch n file c : (c + 1) * n <= length file -> omap (fun j => nth_error file (n * c + j)) (seq 0 n) = Some (entry n file c).
Proof. intros H. rewrite (Nat.mul_comm n c). apply (fetch_slice n file (c * n)). nia. Qed.
Lemma entry_length n file c : (c + 1) * n <= length file -> length (entry n file c) = n.
Proof. intros H. unfold entry. rewrite firstn_length, skipn_length. nia. Qed.

Lemma gather_ok n N file num : length file = n * N -> (forall c, In c num -> c < N) -> gather_blocks n num file = Some (List.concat (map (entry n file) num)).
Proof.
  intros L H. unfold gather_blocks. assert (E : omap (fun c => omap (fun j => nth_error file (n * c + j)) (seq 0 n)) num = Some (map (entry n file) num)).
  { induction num as [|c num IH]; cbn [omap map]; [reflexivity|]. rewrite entry_fetch by (specialize (H c (or_introl eq_refl)); nia). rewrite obind_Some.
    rewrite IH by (intros d Hd; apply H; right; exact Hd). reflexivity. }
  rewrite E. reflexivity.
Qed.
Lemma nth_fetch n file gs k c : (forall d, In d gs -> (d + 1) * n <= length file) -> nth_error gs k = Some c ->
  fetch (List.concat (map (entry n file) gs)) (k * n) n = Some (entry n file c).
Proof.
  intros H Hk. rewrite (Nat.mul_comm k n), <- (app_nil_r (List.concat _)). apply fetch_rows; [|rewrite nth_error_map, Hk; reflexivity].
  apply Forall_forall. intros r Hr. apply in_map_iff in Hr. destruct Hr as (d & <- & Hd). apply entry_length. apply H. exact Hd.
Qed.

(* the local vector of a process holds the values of the file at its cells, ghosts included *)
Definition delivered (n : nat) (file : list R) (p : cprocess) (x : list R) : Prop :=
  length x = n * cm_cells (cp_mesh p) /\ forall c, c < cm_cells (cp_mesh p) -> block n x c = entry n file (cp_gid p c).
Lemma read_ok n refinements N ps file : numbered_as_file N ps -> natural_available (length ps) refinements = true -> length file = n * N ->
  exists local, read_local n refinements (List.concat (layout ps)) ps file = Ret local /\ Forall2 (delivered n file) ps local.
Proof.
  intros [P SF] A L. unfold read_local, read_global. rewrite A. cbn [check].
  assert (Ln : length (List.concat (layout ps)) = N) by (rewrite (Permutation_length P), seq_length; reflexivity).
  assert (B : forall c, In c (List.concat (layout ps)) -> c < N) by (intros c Hc; apply (Permutation_in c P) in Hc; apply in_seq in Hc; lia).
  rewrite Ln, L, Nat.eqb_refl. cbn [check]. rewrite (gather_ok n N file _ L B). cbn [of_option rbind].
  assert (E : parts (map (fun p => n * length (owned_cells (cp_mesh p))) ps) (List.concat (map (entry n file) (List.concat (layout ps)))) = map (fun gs => List.concat (map (entry n file) gs)) (layout ps)).
  { rewrite concat_map, <- (concat_concat (map (map (entry n file)) (layout ps))), map_map. apply concat_skip. unfold layout in *. rewrite !map_map. apply map_ext_in. intros p Hp.
    rewrite (concat_length_const n); [rewrite !map_length; lia|]. intros r Hr. apply in_map_iff in Hr. destruct Hr as (d & <- & Hd). apply entry_length.
    assert (d < N); [|nia]. apply B. apply in_concat. exists (map (cp_gid p) (owned_cells (cp_mesh p))). split; [apply in_map_iff; eauto|exact Hd]. }
  rewrite E. destruct (omap_rel (dm_global_to_local n (map (fun gs => List.concat (map (entry n file) gs)) (layout ps))) (delivered n file) ps) as (xs & Ex & F); [|exists xs; rewrite Ex; split; [reflexivity|exact F]].
  intros p Hp. unfold dm_global_to_local.
  assert (G : omap (fun c => let* x := nth_error (map (fun gs => List.concat (map (entry n file) gs)) (layout ps)) (fst (cp_sf p c)) in fetch x (snd (cp_sf p c) * n) n) (seq 0 (cm_cells (cp_mesh p)))
              = Some (map (fun c => entry n file (cp_gid p c)) (seq 0 (cm_cells (cp_mesh p))))).
  { apply omap_map. intros c Hc. apply in_seq in Hc. destruct (SF p c Hp) as (gs & E1 & E2); [lia|]. rewrite nth_error_map, E1. cbn [option_map obind]. apply nth_fetch; [|exact E2].
    intros d Hd. assert (d < N); [|nia]. apply B. apply in_concat. exists gs. split; [eapply nth_error_In; exact E1|exact Hd]. }
  rewrite G, obind_Some. eexists. split; [reflexivity|].
  assert (Len : forall c, In c (seq 0 (cm_cells (cp_mesh p))) -> length (entry n file (cp_gid p c)) = n).
  { intros c Hc. apply in_seq in Hc. destruct (SF p c Hp) as (gs & E1 & E2); [lia|]. apply entry_length. assert (cp_gid p c < N); [|nia]. apply B. apply in_concat. exists gs. split; eapply nth_error_In; eassumption. }
  assert (Lx : length (List.concat (map (fun c => entry n file (cp_gid p c)) (seq 0 (cm_cells (cp_mesh p))))) = n * cm_cells (cp_mesh p)).
  { rewrite (concat_length_const n); [rewrite map_length, seq_length; lia|]. intros r Hr. apply in_map_iff in Hr. destruct Hr as (c & <- & Hc). apply Len. exact Hc. }
  split; [exact Lx|]. intros c Hc.
  assert (Q : fetch (List.concat (map (fun c => entry n file (cp_gid p c)) (seq 0 (cm_cells (cp_mesh p)))) ++ []) (n * c) n = Some (entry n file (cp_gid p c))).
  { apply fetch_rows; [apply Forall_forall; intros r Hr; apply in_map_iff in Hr; destruct Hr as (d & <- & Hd); apply Len; exact Hd|].
    rewrite nth_error_map, (nth_error_nth' _ 0) by (rewrite seq_length; exact Hc). rewrite seq_nth by exact Hc. reflexivity. }
  rewrite app_nil_r, (Nat.mul_comm n c), fetch_block in Q by (rewrite Lx; nia). congruence.
Qed.

(** ** Values of cells *)
(* The local vector of every process, ghost cells included, holds for each cell the values the file has for it: for any
   number of values for each cell, cells and processes, and any distribution of the cells. *)
Theorem C92_values : forall n refinements N ps file,
  numbered_as_file N ps -> (length ps = 1 \/ refinements = 0) -> length file = n * N ->
  exists local, read_local n refinements (List.concat (layout ps)) ps file = Ret local /\ Forall2 (delivered n file) ps local.
Proof.
  intros n refinements N ps file H A L. apply (read_ok n refinements N); [exact H| |exact L]. unfold natural_available. destruct A as [-> | ->]; [reflexivity|]. rewrite Nat.eqb_refl. apply Bool.orb_true_r.
Qed.
Print Assumptions C92_values.

(* a file of another size is refused *)
Theorem C92_wrong_size : forall n refinements N ps file,
  numbered_as_file N ps -> length file <> n * N -> read_local n refinements (List.concat (layout ps)) ps file = Error.
Proof.
  intros n refinements N ps file [P _] L. unfold read_local, read_global. destruct (natural_available _ _); [|reflexivity]. cbn [check].
  rewrite (Permutation_length P), seq_length. apply Nat.eqb_neq in L. rewrite L. reflexivity.
Qed.
Print Assumptions C92_wrong_size.

(** ** Elevations *)
Definition file_bed (file : list R) (c : nat) : R := nth c file 0%R.
Record same_but_centroids (hm hm' : hmesh) : Prop := {
  sc_mesh : hm_mesh hm' = hm_mesh hm; sc_offsets : hm_offsets hm' = hm_offsets hm; sc_vertices : hm_vertices hm' = hm_vertices hm; sc_count : hm_count hm' = hm_count hm }.
Lemma override_from k : forall a hm elev, a + k <= length elev ->
  exists hm', ofold (fun hm icell => let* z := nth_error elev icell in Some (set_centroid_z hm icell z)) (seq a k) hm = Some hm' /\
    same_but_centroids hm hm' /\ (forall c, a <= c < a + k -> hm_centroid_z hm' c = nth c elev 0%R) /\ (forall c, c < a -> hm_centroid_z hm' c = hm_centroid_z hm c).
Proof.
  induction k as [|k IH]; intros a hm elev H.
  - exists hm. split; [reflexivity|]. split; [constructor; reflexivity|]. split; [intros; lia|reflexivity].
  - cbn [seq ofold]. rewrite (nth_error_nth' elev 0%R) by lia. rewrite !obind_Some.
    destruct (IH (S a) (set_centroid_z hm a (nth a elev 0%R)) elev ltac:(lia)) as (hm' & E & [S1 S2 S3 S4] & I1 & I2).
    exists hm'. split; [exact E|]. split; [constructor; assumption|]. split.
    + intros c Hc. destruct (Nat.eq_dec c a) as [-> |Hn]; [|apply I1; lia]. rewrite I2 by lia. cbn [set_centroid_z hm_centroid_z]. rewrite Nat.eqb_refl. reflexivity.
    + intros c Hc. rewrite I2 by lia. cbn [set_centroid_z hm_centroid_z]. destruct (Nat.eqb_spec c a); [lia|reflexivity].
Qed.
Lemma delivered_nth file p x c : delivered 1 file p x -> c < cm_cells (cp_mesh p) -> nth c x 0%R = file_bed file (cp_gid p c).
Proof.
  intros [L V] H. specialize (V c H). assert (E := nth_block 1 x c 0 ltac:(lia)). rewrite V in E. change (entry 1 file (cp_gid p c)) with (block 1 file (cp_gid p c)) in E.
  rewrite nth_block in E by lia. rewrite Nat.mul_1_r, !Nat.add_0_r in E. unfold file_bed. rewrite Nat.mul_1_r in E. symmetry. exact E.
Qed.
(* process [p] with the elevations of the file *)
Definition elevated (file : list R) (p p' : cprocess) : Prop :=
  exists hm', p' = with_hmesh p hm' /\ same_but_centroids (cp_hmesh p) hm' /\ forall c, c < cm_cells (cp_mesh p) -> hm_centroid_z hm' c = file_bed file (cp_gid p c).
Lemma override_ok refinements N ps file : numbered_as_file N ps -> natural_available (length ps) refinements = true -> length file = N ->
  exists ps', OverrideCellElevation refinements (List.concat (layout ps)) file ps = Ret ps' /\ Forall2 (elevated file) ps ps'.
Proof.
  intros H A L. destruct (read_ok 1 refinements N ps file H A) as (local & E & F); [lia|]. unfold OverrideCellElevation. rewrite E. cbn [rbind]. clear E H A.
  induction F as [|p x ps local Hx F IH]; [exists []; split; [reflexivity|constructor]|]. cbn [combine omap fst snd].
  destruct (override_from (cm_cells (hm_mesh (cp_hmesh p))) 0 (cp_hmesh p) x) as (hm' & Eo & SM & V & _); [destruct Hx as [-> _]; unfold cp_mesh; lia|].
  unfold override_loop at 1. rewrite Eo, !obind_Some. destruct IH as (ps' & E' & F'). destruct (omap _ (combine ps local)) as [ps0|]; [|discriminate E']. cbn [of_option] in E'. assert (ps0 = ps') by congruence. subst ps0.
  exists (with_hmesh p hm' :: ps'). split; [reflexivity|]. constructor; [|exact F']. exists hm'. split; [reflexivity|]. split; [exact SM|].
  intros c Hc. rewrite V by (unfold cp_mesh in Hc; lia). apply delivered_nth; assumption.
Qed.

Lemma elevated_mesh file p p' : elevated file p p' -> cp_mesh p' = cp_mesh p /\ cp_bounds p' = cp_bounds p /\ cp_ext p' = cp_ext p /\ cp_mat p' = cp_mat p /\ cp_gid p' = cp_gid p /\ cp_sf p' = cp_sf p.
Proof. intros (hm' & -> & [S1 _ _ _] & _). unfold cp_mesh. cbn [with_hmesh cp_hmesh cp_bounds cp_ext cp_mat cp_gid cp_sf]. auto 10. Qed.
Lemma elevated_layout file ps ps' : Forall2 (elevated file) ps ps' -> layout ps' = layout ps.
Proof.
  intros F. unfold layout. induction F as [|p p' ps ps' Hp F IH]; cbn [map]; [reflexivity|]. rewrite IH. destruct (elevated_mesh _ _ _ Hp) as (-> & _ & _ & _ & -> & _). reflexivity.
Qed.
Lemma elevated_edges file ps ps' : Forall2 (elevated file) ps ps' -> boundary_edges ps' = boundary_edges ps.
Proof.
  intros F. unfold boundary_edges. induction F as [|p p' ps ps' Hp F IH]; cbn [map]; [reflexivity|]. rewrite IH. destruct (elevated_mesh _ _ _ Hp) as (_ & -> & _). reflexivity.
Qed.
Lemma elevated_bed file fl z p p' : elevated file p p' ->
  (cells_ok (cp_hmesh p) /\ forall c, c < cm_cells (cp_mesh p) -> bed fl (cp_hmesh p) c = z (cp_gid p c)) ->
  cells_ok (cp_hmesh p') /\ forall c, c < cm_cells (cp_mesh p') -> bed true (cp_hmesh p') c = file_bed file (cp_gid p' c).
Proof.
  intros (hm' & -> & [S1 S2 S3 S4] & V) [C _]. cbn [with_hmesh cp_hmesh cp_gid]. unfold cp_mesh. cbn [with_hmesh cp_hmesh]. split.
  - intros c Hc. rewrite S1 in Hc. destruct (C c Hc) as [C1 C2]. rewrite S4. split; [|exact C2]. rewrite C1. unfold cell_vertices. rewrite S2, S3. reflexivity.
  - intros c Hc. rewrite S1 in Hc. cbn [bed]. apply V. exact Hc.
Qed.
Lemma elevated_rank file p p' : elevated file p p' -> rank_of p' = rank_of p /\ prank_of p' = prank_of p.
Proof. intros H. destruct (elevated_mesh _ _ _ H) as (E1 & E2 & E3 & E4 & E5 & E6). unfold rank_of, prank_of. rewrite E1, E2, E5. auto. Qed.
Lemma elevated_process fl cf m z g src file p p' : elevated file p p' -> process_ok (Hydrostatic fl) cf m z g src p -> process_ok (Hydrostatic true) cf m (file_bed file) g src p'.
Proof.
  intros H [P1 P2 P3 P4 P5 P6 P7 P8 P9 P10 P11 P12]. assert (B := elevated_bed file fl z p p' H (P8 fl eq_refl)).
  destruct (elevated_rank _ _ _ H) as (ER & _). destruct (elevated_mesh _ _ _ H) as (E1 & E2 & E3 & E4 & E5 & E6).
  constructor; rewrite ?ER, ?E1, ?E2, ?E3, ?E4, ?E5; try assumption.
  - discriminate.
  - intros f Ef. injection Ef as <-. rewrite E1, E5 in B. exact B.
Qed.
Lemma elevated_petsc fl cf m z g src file p p' : elevated file p p' -> petsc_process_ok (Hydrostatic fl) cf m z g src p -> petsc_process_ok (Hydrostatic true) cf m (file_bed file) g src p'.
Proof.
  intros H [P1 P2 P3 P4 P5 P6 P7 P8 P9 P10 P11 P12]. assert (B := elevated_bed file fl z p p' H (P8 fl eq_refl)).
  destruct (elevated_rank _ _ _ H) as (_ & ER). destruct (elevated_mesh _ _ _ H) as (E1 & E2 & E3 & E4 & E5 & E6).
  constructor; rewrite ?ER, ?E1, ?E2, ?E3, ?E4, ?E5; try assumption.
  - discriminate.
  - intros f Ef. injection Ef as <-. rewrite E1, E5 in B. exact B.
Qed.
Lemma Forall2_in_r {A B} (P : A -> B -> Prop) l l' b : Forall2 P l l' -> In b l' -> exists a, In a l /\ P a b.
Proof. intros F. induction F as [|x y l l' H F IH]; [intros []|]. intros [<-|Hb]; [exists x; cbn; auto|]. destruct (IH Hb) as (a & Ha & Pa). exists a. cbn. auto. Qed.
Lemma elevated_sf file ps ps' : Forall2 (elevated file) ps ps' ->
  (forall p c, In p ps -> c < cm_cells (cp_mesh p) -> exists gs, nth_error (layout ps) (fst (cp_sf p c)) = Some gs /\ nth_error gs (snd (cp_sf p c)) = Some (cp_gid p c)) ->
  forall p c, In p ps' -> c < cm_cells (cp_mesh p) -> exists gs, nth_error (layout ps') (fst (cp_sf p c)) = Some gs /\ nth_error gs (snd (cp_sf p c)) = Some (cp_gid p c).
Proof.
  intros F SF p' c Hp' Hc. destruct (Forall2_in_r _ _ _ _ F Hp') as (p & Hp & H). destruct (elevated_mesh _ _ _ H) as (E1 & _ & _ & _ & E5 & E6). rewrite (elevated_layout _ _ _ F), E5, E6. rewrite E1 in Hc. exact (SF p c Hp Hc).
Qed.
Lemma elevated_distributed fl cf m z g src file ps ps' : Forall2 (elevated file) ps ps' -> distributed (Hydrostatic fl) cf m z g src ps -> distributed (Hydrostatic true) cf m (file_bed file) g src ps'.
Proof.
  intros F [D1 D2 D3 D4 D5]. constructor.
  - intros p' Hp'. destruct (Forall2_in_r _ _ _ _ F Hp') as (p & Hp & H). exact (elevated_process _ _ _ _ _ _ _ _ _ H (D1 p Hp)).
  - rewrite (elevated_layout _ _ _ F). exact D2.
  - destruct D3 as (ges & G & P). exists ges. split; [|exact P]. clear P D1 D2 D4 D5. revert ges G. induction F as [|p p' ps ps' H F IH]; intros ges G; inversion G; subst; constructor; [|apply IH; assumption].
    destruct (elevated_mesh _ _ _ H) as (-> & _ & _ & _ & -> & _). assumption.
  - destruct D4 as (gbs & G & P). exists gbs. split; [|exact P]. clear P D1 D2 D3 D5. revert gbs G. induction F as [|p p' ps ps' H F IH]; intros gbs G; inversion G; subst; constructor; [|apply IH; assumption].
    destruct (elevated_mesh _ _ _ H) as (-> & -> & _ & _ & -> & _). assumption.
  - exact (elevated_sf _ _ _ F D5).
Qed.
Lemma elevated_petsc_distributed fl cf m z g src file ps ps' : Forall2 (elevated file) ps ps' -> petsc_distributed (Hydrostatic fl) cf m z g src ps -> petsc_distributed (Hydrostatic true) cf m (file_bed file) g src ps'.
Proof.
  intros F [D1 D2]. constructor; [|exact (elevated_sf _ _ _ F D2)].
  intros p' Hp'. destruct (Forall2_in_r _ _ _ _ F Hp') as (p & Hp & H). exact (elevated_petsc _ _ _ _ _ _ _ _ _ H (D1 p Hp)).
Qed.

(** ** Runs *)
(* the data of all steps with the elevations of the file *)
Lemma steps_ok {X} (P : X -> R * list cprocess -> Prop) L N file xs steps :
  (forall x st, P x st -> layout (snd st) = L /\ numbered_as_file N (snd st)) -> length file = N -> Forall2 P xs steps ->
  exists steps', run_elevations 0 (List.concat L) (Some file) steps = Ret steps' /\
    Forall2 (fun st st' => fst st' = fst st /\ Forall2 (elevated file) (snd st) (snd st')) steps steps'.
Proof.
  intros HP L0 F. unfold run_elevations. induction F as [|x st xs steps Hx F IH]; [exists []; split; [reflexivity|constructor]|].
  destruct (HP x st Hx) as (HL & HN). destruct (override_ok 0 N (snd st) file HN) as (ps' & E & Fe); [unfold natural_available; rewrite Nat.eqb_refl; apply Bool.orb_true_r|exact L0|].
  destruct IH as (steps' & Es & Fs). rewrite HL in E. cbn [rmap set_elevations]. rewrite E. cbn [rbind]. cbn [set_elevations] in Es. rewrite Es. cbn [rbind]. exists ((fst st, ps') :: steps'). split; [reflexivity|]. constructor; [|exact Fs]. auto.
Qed.
Lemma numbered_distributed w cf m z g src ps N : Permutation (cells m) (seq 0 N) -> distributed w cf m z g src ps -> numbered_as_file N ps.
Proof. intros P [D1 D2 D3 D4 D5]. constructor; [exact (Permutation_trans D2 P)|exact D5]. Qed.
Lemma numbered_petsc w cf m z g src ps L N : Permutation (List.concat L) (seq 0 N) -> layout ps = L -> petsc_distributed w cf m z g src ps -> numbered_as_file N ps.
Proof. intros P HL [D1 D2]. constructor; [rewrite HL; exact P|exact D2]. Qed.
Lemma ceed_steps fl cf m z g L xs steps file N : Permutation (cells m) (seq 0 N) -> length file = N -> Forall2 (run_distributed (Hydrostatic fl) cf m z g L) xs steps ->
  exists steps', run_elevations 0 (List.concat L) (Some file) steps = Ret steps' /\ Forall2 (run_distributed (Hydrostatic true) cf m (file_bed file) g L) xs steps'.
Proof.
  intros P LN F. destruct (steps_ok (run_distributed (Hydrostatic fl) cf m z g L) L N file xs steps) as (steps' & E & Fe); [|exact LN|exact F|].
  - intros x st (_ & _ & HL & HD). split; [exact HL|]. apply (numbered_distributed _ _ _ _ _ _ _ N) in HD; [exact HD|exact P].
  - exists steps'. split; [exact E|]. clear E. revert steps' Fe. induction F as [|x st xs steps (H1 & H2 & H3 & H4) F IH]; intros steps' Fe; inversion Fe as [|? st' ? steps0 [E1 E2] Fe']; subst; constructor; [|apply IH; assumption].
    split; [congruence|]. split; [exact H2|]. split; [apply (elevated_layout _ _ _ E2)|]. exact (elevated_distributed _ _ _ _ _ _ _ _ _ E2 H4).
Qed.
Lemma petsc_steps fl cf m z g L EE xs steps file N : Permutation (List.concat L) (seq 0 N) -> length file = N -> Forall2 (petsc_run_distributed (Hydrostatic fl) cf m z g L EE) xs steps ->
  exists steps', run_elevations 0 (List.concat L) (Some file) steps = Ret steps' /\ Forall2 (petsc_run_distributed (Hydrostatic true) cf m (file_bed file) g L EE) xs steps'.
Proof.
  intros P LN F. destruct (steps_ok (petsc_run_distributed (Hydrostatic fl) cf m z g L EE) L N file xs steps) as (steps' & E & Fe); [|exact LN|exact F|].
  - intros x st (_ & _ & HL & _ & HD). split; [exact HL|]. exact (numbered_petsc _ _ _ _ _ _ _ L N P HL HD).
  - exists steps'. split; [exact E|]. clear E P. revert steps' Fe. induction F as [|x st xs steps (H1 & H2 & H3 & H4 & H5) F IH]; intros steps' Fe; inversion Fe as [|? st' ? steps0 [E1 E2] Fe']; subst; constructor; [|apply IH; assumption].
    split; [congruence|]. split; [exact H2|]. split; [apply (elevated_layout _ _ _ E2)|]. split; [apply (elevated_edges _ _ _ E2)|]. exact (elevated_petsc_distributed _ _ _ _ _ _ _ _ _ E2 H5).
Qed.

(* With hydrostatic reconstruction, a run on any number of processes computes the solution over the bed given in the
   file, whatever the elevations of the grid. *)
Theorem C92_run_ceed : forall i fl cf m z g L xs steps file N U u u',
  flow_config cf -> well_formed m -> Permutation (cells m) (seq 0 N) -> length file = N ->
  Forall2 (run_distributed (Hydrostatic fl) cf m z g L) xs steps -> holds L U u ->
  run i (scheme_of (Hydrostatic true) cf (file_bed file) g) m xs u = Some u' ->
  exists steps' U', run_elevations 0 (List.concat L) (Some file) steps = Ret steps' /\ ceed_run i (balancing_of true (Some file)) cf steps' U = Some U' /\ holds L U' u'.
Proof.
  intros i fl cf m z g L xs steps file N U u u' C WF P LN F HU H. destruct (ceed_steps _ _ _ _ _ _ _ _ _ _ P LN F) as (steps' & E & F').
  destruct (C72_run i (Hydrostatic true) cf m (file_bed file) g L xs steps' U u u' C WF F' HU H) as (U' & EU & HU'). exists steps', U'. auto.
Qed.
Print Assumptions C92_run_ceed.
Theorem C92_run_petsc : forall i fl cf m z g L E xs steps file N U S u u',
  petsc_config cf -> well_formed m -> Permutation (List.concat L) (seq 0 N) -> length file = N ->
  Forall2 (petsc_run_distributed (Hydrostatic fl) cf m z g L E) xs steps -> holds L U u -> bops_sized E S ->
  run i (petsc_scheme_of (Hydrostatic true) cf (file_bed file) g) m xs u = Some u' ->
  exists steps' U' S', run_elevations 0 (List.concat L) (Some file) steps = Ret steps' /\ petsc_run i (balancing_of true (Some file)) cf steps' (U, S) = Some (U', S') /\ holds L U' u' /\ bops_sized E S'.
Proof.
  intros i fl cf m z g L E xs steps file N U S u u' C WF P LN F HU HS H. destruct (petsc_steps _ _ _ _ _ _ _ _ _ _ _ P LN F) as (steps' & Es & F').
  destruct (C73_run i (Hydrostatic true) cf m (file_bed file) g L E xs steps' U S u u' C WF F' HU HS H) as (U' & S' & EU & HU' & HS'). exists steps', U', S'. auto.
Qed.
Print Assumptions C92_run_petsc.
(* in particular water at rest over the bed of the file stays at rest *)
Theorem C92_lake_at_rest : forall i fl cf m z g L xs steps file N U eta,
  flow_config cf -> friction_ok (friction_of cf) -> well_formed m -> Permutation (cells m) (seq 0 N) -> (forall c, In c (List.concat L) -> In c (cells m)) -> length file = N ->
  Forall2 (run_distributed (Hydrostatic fl) cf m z g L) xs steps ->
  resolved (cf_tiny_h cf) m (file_bed file) eta -> (forall x, In x xs -> quiet_step m x) -> holds L U (lake_field (file_bed file) eta) ->
  exists steps' U', run_elevations 0 (List.concat L) (Some file) steps = Ret steps' /\ ceed_run i (balancing_of true (Some file)) cf steps' U = Some U' /\ holds L U' (lake_field (file_bed file) eta).
Proof.
  intros i fl cf m z g L xs steps file N U eta C FO WF P Lin LN F RS QS HU. destruct (ceed_steps _ _ _ _ _ _ _ _ _ _ P LN F) as (steps' & E & F').
  destruct (C72_lake_at_rest i true cf m (file_bed file) g L xs steps' U eta C FO WF Lin F' RS QS HU) as (U' & EU & HU'). exists steps', U'. auto.
Qed.
Print Assumptions C92_lake_at_rest.

(** ** A file of elevations without hydrostatic reconstruction *)
(* The elevations of the file are accepted but change nothing: for every run without hydrostatic reconstruction, on both
   back ends, two files give the same solution. *)
Lemma omap_Forall2 {A A' B} (Q : A -> A' -> Prop) (f : A -> option B) (f' : A' -> option B) l l' : Forall2 Q l l' -> (forall a a', Q a a' -> f a = f' a') -> omap f l = omap f' l'.
Proof. intros F H. induction F as [|a a' l l' Ha F IH]; cbn [omap]; [reflexivity|]. rewrite (H a a' Ha), IH. reflexivity. Qed.
Definition alike (p p' : cprocess) : Prop := cp_mesh p' = cp_mesh p /\ cp_bounds p' = cp_bounds p /\ cp_ext p' = cp_ext p /\ cp_mat p' = cp_mat p /\ cp_sf p' = cp_sf p.
Lemma Forall2_weaken {A B} (P Q : A -> B -> Prop) l l' : (forall a b, P a b -> Q a b) -> Forall2 P l l' -> Forall2 Q l l'.
Proof. intros H F. induction F; constructor; auto. Qed.
Lemma combine_Forall2 {A A' B} (Q : A -> A' -> Prop) l l' (bs : list B) : Forall2 Q l l' -> Forall2 (fun x x' => Q (fst x) (fst x') /\ snd x = snd x') (combine l bs) (combine l' bs).
Proof. intros F. revert bs. induction F as [|a a' l l' H F IH]; intros [|b bs]; cbn [combine]; constructor; cbn; auto. Qed.
Lemma ofold_Forall2 {A A' T} (Q : A -> A' -> Prop) (f : T -> A -> option T) (f' : T -> A' -> option T) l l' t : Forall2 Q l l' -> (forall t a a', Q a a' -> f t a = f' t a') -> ofold f l t = ofold f' l' t.
Proof. intros F H. revert t. induction F as [|a a' l l' Ha F IH]; intros t; cbn [ofold]; [reflexivity|]. rewrite (H t a a' Ha). destruct (f' t a'); [apply IH|reflexivity]. Qed.
Lemma alike_sizes n ps ps' : Forall2 alike ps ps' -> map (fun p => repeat 0%R (n * length (owned_cells (cp_mesh p)))) ps = map (fun p => repeat 0%R (n * length (owned_cells (cp_mesh p)))) ps'.
Proof. intros F. induction F as [|p p' ps ps' (E & _) F IH]; cbn [map]; [reflexivity|]. rewrite E, IH. reflexivity. Qed.
Lemma alike_scatter n U p p' : alike p p' -> dm_global_to_local n U p = dm_global_to_local n U p'.
Proof. intros (E1 & _ & _ & _ & E5). unfold dm_global_to_local. rewrite E1, E5. reflexivity. Qed.
Lemma ceed_alike cf dt ps ps' U : Forall2 alike ps ps' -> OperatorRHSFunction Standard cf dt ps U = OperatorRHSFunction Standard cf dt ps' U.
Proof.
  intros F. unfold OperatorRHSFunction. rewrite (omap_Forall2 _ _ (dm_global_to_local (num_comp cf) U) _ _ F (alike_scatter _ U)). destruct (omap _ ps') as [us|]; [|reflexivity]. rewrite !obind_Some.
  unfold ApplyCeedOperator. assert (Fu := combine_Forall2 _ _ _ us F).
  rewrite (omap_Forall2 _ _ (fun pu => local_flux Standard cf dt (fst pu) (snd pu)) _ _ Fu).
  2:{ intros [p u] [p' u'] [(E1 & E2 & _) E]. cbn [fst snd] in *. subst u'. unfold local_flux. rewrite E1, E2. reflexivity. }
  destruct (omap _ (combine ps' us)) as [fs|]; [|reflexivity]. rewrite !obind_Some. rewrite (alike_sizes _ _ _ F). unfold dm_local_to_global_add.
  rewrite (ofold_Forall2 _ _ (add_process (num_comp cf)) _ _ _ (combine_Forall2 _ _ _ fs F)).
  2:{ intros t [p u] [p' u'] [(E1 & _ & _ & _ & E5) E]. cbn [fst snd] in *. subst u'. unfold add_process, add_cell. cbn [fst snd]. rewrite E1, E5. reflexivity. }
  destruct (ofold _ (combine ps' fs) _) as [divs|]; [|reflexivity]. rewrite !obind_Some. apply (omap_Forall2 _ _ _ _ _ (combine_Forall2 _ _ _ divs Fu)).
  intros [[p u] d] [[p' u'] d'] [[(E1 & _ & E3 & E4 & _) E] E']. cbn [fst snd] in *. subst u' d'. unfold local_source. rewrite E1, E3, E4. reflexivity.
Qed.
Lemma petsc_alike cf dt ps ps' S U : Forall2 alike ps ps' -> PetscRHSFunction Standard cf dt ps S U = PetscRHSFunction Standard cf dt ps' S U.
Proof.
  intros F. unfold PetscRHSFunction. rewrite (omap_Forall2 _ _ (dm_global_to_local 3 U) _ _ F (alike_scatter _ U)). destruct (omap _ ps') as [us|]; [|reflexivity]. rewrite !obind_Some.
  rewrite (omap_Forall2 _ _ (fun x => ApplyPetscOperator Standard cf dt (fst (fst x)) (snd (fst x)) (snd x)) _ _ (combine_Forall2 _ _ _ S (combine_Forall2 _ _ _ us F))); [reflexivity|].
  intros [[p u] s] [[p' u'] s'] [[(E1 & E2 & E3 & E4 & _) E] E']. cbn [fst snd] in *. subst u' s'. unfold ApplyPetscOperator, petsc_flux. rewrite E1, E2, E3, E4. reflexivity.
Qed.
Lemma override_mesh l : forall hm elev hm', ofold (fun hm icell => let* z := nth_error elev icell in Some (set_centroid_z hm icell z)) l hm = Some hm' -> hm_mesh hm' = hm_mesh hm.
Proof.
  induction l as [|c l IH]; intros hm elev hm' H; cbn [ofold] in H; [congruence|]. destruct (nth_error elev c) as [z|]; [|discriminate H]. rewrite !obind_Some in H. rewrite (IH _ _ _ H). reflexivity.
Qed.
Lemma omap_len {A B} (f : A -> option B) l bs : omap f l = Some bs -> length bs = length l.
Proof. revert bs. induction l as [|a l IH]; intros bs H; cbn [omap] in H; [injection H as <-; reflexivity|]. apply obind_some in H. destruct H as (b & _ & H). apply obind_some in H. destruct H as (bs' & E & H). injection H as <-. cbn [List.length]. rewrite (IH _ E). reflexivity. Qed.
Lemma set_alike refinements num file ps ps' : set_elevations refinements num file ps = Ret ps' -> Forall2 alike ps ps'.
Proof.
  assert (SELF : forall p, alike p p) by (intros p; unfold alike; auto 10).
  destruct file as [file|]; cbn [set_elevations]; [|intros H; injection H as <-; induction ps; constructor; auto].
  unfold OverrideCellElevation. destruct (read_local 1 refinements num ps file) as [local| |] eqn:E; cbn [rbind]; try discriminate.
  assert (Ll : length local = length ps).
  { unfold read_local in E. destruct (read_global 1 refinements num (length ps) file) as [global| |]; cbn [rbind] in E; try discriminate E.
    destruct (omap (dm_global_to_local 1 _) ps) as [l|] eqn:El; cbn [of_option] in E; [|discriminate E]. injection E as <-. exact (omap_len _ _ _ El). }
  clear E. revert local ps' Ll. induction ps as [|p ps IH]; intros [|x local] ps' Ll H; try discriminate Ll.
  - cbn in H. injection H as <-. constructor.
  - cbn [combine omap fst snd] in H. unfold override_loop at 1 in H. destruct (ofold _ _ (cp_hmesh p)) as [hm'|] eqn:Eo; [|discriminate H]. rewrite !obind_Some in H.
    destruct (omap _ (combine ps local)) as [qs|] eqn:Eq; [|discriminate H]. rewrite obind_Some in H. cbn [of_option] in H. injection H as <-. constructor.
    + unfold alike, cp_mesh. cbn [with_hmesh cp_hmesh cp_bounds cp_ext cp_mat cp_sf]. rewrite (override_mesh _ _ _ _ Eo). auto 10.
    + apply (IH local); [cbn in Ll; lia|]. rewrite Eq. reflexivity.
Qed.
Lemma run_alike refinements num file steps steps' : run_elevations refinements num file steps = Ret steps' -> Forall2 (fun st st' => fst st' = fst st /\ Forall2 alike (snd st) (snd st')) steps steps'.
Proof.
  unfold run_elevations. revert steps'. induction steps as [|st steps IH]; intros steps' H; cbn [rmap] in H; [injection H as <-; constructor|].
  destruct (set_elevations refinements num file (snd st)) as [ps'| |] eqn:E; cbn [rbind] in H; try discriminate H. destruct (rmap _ steps) as [steps0| |] eqn:Er; cbn [rbind] in H; try discriminate H. injection H as <-.
  constructor; [split; [reflexivity|exact (set_alike _ _ _ _ _ E)]|]. apply IH. reflexivity.
Qed.
Lemma vec_step_ext i F G dt U : (forall V, F V = G V) -> vec_step i F dt U = vec_step i G dt U.
Proof.
  intros H. destruct i; cbn [vec_step]; unfold vec_euler, vec_rk4; rewrite H; [reflexivity|]. destruct (G U) as [K1|]; [|reflexivity]. rewrite !obind_Some, H. destruct (G _) as [K2|]; [|reflexivity]. rewrite !obind_Some, H.
  destruct (G _) as [K3|]; [|reflexivity]. rewrite !obind_Some, H. reflexivity.
Qed.
Lemma state_step_ext {S} i (F G : S -> list (list R) -> option (list (list R) * S)) dt x : (forall s V, F s V = G s V) -> state_step F i dt x = state_step G i dt x.
Proof.
  intros H. destruct x as [U s]. destruct i; cbn [state_step]; unfold state_euler, state_rk4; rewrite H; [reflexivity|]. destruct (G s U) as [[K1 s1]|]; [|reflexivity]. rewrite !obind_Some, H. destruct (G s1 _) as [[K2 s2]|]; [|reflexivity]. rewrite !obind_Some, H.
  destruct (G s2 _) as [[K3 s3]|]; [|reflexivity]. rewrite !obind_Some, H. reflexivity.
Qed.
Theorem C92_ignored_refuted : forall i cf refinements num file steps steps' U S,
  run_elevations refinements num (Some file) steps = Ret steps' ->
  ceed_run i (balancing_of false (Some file)) cf steps' U = ceed_run i (balancing_of false None) cf steps U /\
  petsc_run i (balancing_of false (Some file)) cf steps' (U, S) = petsc_run i (balancing_of false None) cf steps (U, S).
Proof.
  intros i cf refinements num file steps steps' U S H. apply run_alike in H. cbn [balancing_of]. unfold ceed_run, petsc_run. split; symmetry.
  - apply (ofold_Forall2 _ _ _ _ _ _ H). intros V st st' [E F]. rewrite E. apply vec_step_ext. intros W. apply ceed_alike. exact F.
  - apply (ofold_Forall2 _ _ _ _ _ _ H). intros V st st' [E F]. rewrite E. apply state_step_ext. intros s W. apply petsc_alike. exact F.
Qed.
Print Assumptions C92_ignored_refuted.

(** ** Refinement *)
(* A file that fits the mesh is refused after a refinement, as it is read again: on several processes always, on one
   process when there are more cells than before. *)
Theorem C92_refined_refuted : forall refinements N N' ps ps' file,
  numbered_as_file N ps -> numbered_as_file N' ps' -> (N < N' \/ 1 < length ps') -> length file = N -> refinements <> 0 ->
  (exists qs, set_elevations 0 (List.concat (layout ps)) (Some file) ps = Ret qs) /\
  set_elevations refinements (List.concat (layout ps')) (Some file) ps' = Error.
Proof.
  intros refinements N N' ps ps' file H H' LT L R0. split.
  - destruct (override_ok 0 N ps file H) as (qs & E & _); [unfold natural_available; rewrite Nat.eqb_refl; apply Bool.orb_true_r|exact L|]. exists qs. exact E.
  - cbn [set_elevations]. unfold OverrideCellElevation. destruct LT as [LT|LT].
    + rewrite (C92_wrong_size 1 refinements N' ps' file H') by lia. reflexivity.
    + unfold read_local, read_global, natural_available. destruct (Nat.eqb_spec (length ps') 1); [lia|]. destruct (Nat.eqb_spec refinements 0); [contradiction|]. reflexivity.
Qed.
Print Assumptions C92_refined_refuted.

(** ** Examples *)
Lemma squares_numbered : numbered_as_file 2 square_ps.
Proof. constructor; [apply Permutation_refl|]. exact (di_sf _ _ _ _ _ _ _ squares_distributed). Qed.
(* two values for each of two cells on two processes: the second process has its own cell first *)
Example C92_values_example : read_local 2 0 [0; 1] square_ps [10; 11; 20; 21]%R = Ret [[10; 11; 20; 21]; [20; 21; 10; 11]]%R.
Proof. reflexivity. Qed.
(* the grid has elevations 0 and 1, the file 3 and 1: level 4 over the bed of the file stays at rest *)
Example C92_lake_example : exists steps' U', run_elevations 0 [0; 1] (Some [3; 1]%R) [(1/10, square_ps)%R; (1/10, square_ps)%R] = Ret steps' /\
  ceed_run RK4 (Hydrostatic true) (one_config 0 false) steps' [[1;0;0]; [3;0;0]]%R = Some U' /\ holds [[0];[1]] U' (lake_field (file_bed [3; 1]%R) 4).
Proof.
  assert (D0 : depth_at (file_bed [3; 1]%R) 4 0 = 1%R) by (unfold depth_at, file_bed; cbn [nth]; rewrite Rmax_right by lra; lra).
  assert (D1 : depth_at (file_bed [3; 1]%R) 4 1 = 3%R) by (unfold depth_at, file_bed; cbn [nth]; rewrite Rmax_right by lra; lra).
  apply (C92_lake_at_rest RK4 true (one_config 0 false) squares INR square_geom [[0];[1]] [square_step; square_step] [(1/10, square_ps)%R; (1/10, square_ps)%R] [3; 1]%R 2 [[1;0;0]; [3;0;0]]%R 4).
  - repeat split. cbn. lra.
  - exact I.
  - split; [cbn; repeat constructor; cbn; lia|]. intros e [<-|[]]. cbn. auto.
  - apply Permutation_refl.
  - intros c Hc. exact Hc.
  - reflexivity.
  - exact square_run.
  - split.
    + intros c Hc. change (cf_tiny_h (one_config 0 false)) with (1/1000)%R. destruct Hc as [<-|[<-|[]]]; [rewrite D0|rewrite D1]; right; lra.
    + intros e [<-|[]]. change (cf_tiny_h (one_config 0 false)) with (1/1000)%R. cbn [ie_l ie_r]. unfold file_bed. cbn [nth]. rewrite Rmax_left by lra. right. lra.
  - intros x [<-|[<-|[]]]; exact squares_quiet.
  - repeat constructor; (intros i c Hi; destruct i as [|i]; [injection Hi as <-; unfold lake_field; rewrite ?D0, ?D1; reflexivity|destruct i; discriminate]).
Qed.
(* without hydrostatic reconstruction the same file is accepted *)
Example C92_ignored_example : exists steps', run_elevations 0 [0; 1] (Some [3; 1]%R) [(1/10, square_ps)%R] = Ret steps'.
Proof. eexists. reflexivity. Qed.
(* two cells become eight: one process *)
Definition lone (n : nat) : cprocess :=
  CProcess (HMesh (CMesh n 0 [] (fun _ => 0) (fun _ => 0) (fun _ => true) (fun _ => 0%R) (fun _ => 0%R) (fun _ => 1%R) (fun _ => 1%R) (fun _ => true) (fun c => c) (fun _ => 0%R) (fun _ => 0%R) (fun _ => 0%R))
    (fun c => c) (fun c => c) (fun _ => 1) (fun _ => 0%R)) [] [] [] (fun c => c) (fun c => (0, c)).
Lemma owned_true l : filter (fun _ : nat => true) l = l. Proof. induction l as [|x l IH]; cbn; [reflexivity|rewrite IH; reflexivity]. Qed.
Lemma lone_numbered n : numbered_as_file n [lone n].
Proof.
  assert (E : layout [lone n] = [seq 0 n]) by (unfold layout, owned_cells; cbn [map lone cp_mesh cp_hmesh hm_mesh cm_cells cm_owned cp_gid]; rewrite map_id; apply (f_equal (fun x => [x])); apply owned_true).
  constructor; [rewrite E; cbn [List.concat]; rewrite app_nil_r; apply Permutation_refl|]. intros p c [<-|[]] Hc. rewrite E. exists (seq 0 n). split; [reflexivity|]. cbn [lone cp_sf snd cp_gid]. cbn [lone cp_mesh cp_hmesh hm_mesh cm_cells] in Hc.
  rewrite (nth_error_nth' _ 0) by (rewrite seq_length; exact Hc). rewrite seq_nth by exact Hc. reflexivity.
Qed.
Example C92_refined_example : set_elevations 1 (List.concat (layout [lone 8])) (Some [3; 1]%R) [lone 8] = Error.
Proof. apply (C92_refined_refuted 1 2 8 [lone 2] [lone 8] [3; 1]%R (lone_numbered 2) (lone_numbered 8)); [lia|reflexivity|discriminate]. Qed.
