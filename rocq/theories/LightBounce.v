(** A particle without a speed between two reflecting walls: a track without end. *)
From Coq Require Import NArith ZArith QArith List Bool Lia.
From Verif Require Import Float RngModel ParticleModel NuclearModel MeshTypes Balance TrackModel CycleModel QuietTrack.
Import ListNotations.
Local Open Scope N_scope.

Section Bounce.
Context {K : FloatOps}.
Variable td : track_data K.
Variable dom : domain K.
Variable xs : F K.          (* cross section of the cell *)
Let m : mesh K := d_mesh dom.
Let mfp : F K := fdiv f1 xs.

Definition tolerance_at (c : vec K) : F K :=
  fmul (flit (1 # 10000000000000000)) (fadd (fadd (fmul (vx c) (vx c)) (fmul (vy c) (vy c))) (fmul (vz c) (vz c))).
Definition normal (pl : plane K) : vec K := mkVec (pl_a pl) (pl_b pl) (pl_c pl).

(** One flight in cell 0, from [c] along [d] to a reflecting facet at [c'], from where the particle leaves along [d']. *)
Record leg (c d c' d' : vec K) (planes : list (plane K)) (ds : list (F K)) (i : N) (len : F K) (conn : cell_conn) (fa : facet_adj) (pl : plane K) : Prop := {
  lg_planes : vec_get (me_geom m) 0 = Ok planes;
  lg_distances : facet_distances m 0 c d (tolerance_at c) 0 planes = Ok ds;
  lg_nearest : compute_nearest ds = (i, len);
  lg_found : feq len fhuge = false;
  lg_positive : fle len f0 = false;
  lg_max : fmax len f0 = len;
  lg_huge : fle len fhuge = true;
  lg_nonneg : fle f0 len = true;
  lg_zero : feq len f0 = false;
  lg_shorter : flt len (fmul f1 mfp) = true;
  lg_paths : fsub f1 (fdiv len mfp) = f1;
  lg_end : vadd c (vscale d len) = c';
  lg_conn : vec_get (me_conn m) 0 = Ok conn;
  lg_adj : vec_get (cc_facet conn) i = Ok fa;
  lg_reflects : fa_event fa = BoundaryReflection;
  lg_plane : vec_get planes i = Ok pl;
  lg_outward : flt f0 (fmul ftwo (vdot d (normal pl))) = true;
  lg_turn : vsub d (vscale (normal pl) (fmul ftwo (vdot d (normal pl)))) = d'
}.

Hypothesis Hxs : feq xs f0 = false.
Hypothesis Hmfp : flt (fmul f1 mfp) fhuge = true.
Hypothesis H10 : feq (f1 : F K) f0 = false.
Hypothesis H1 : flt (f1 : F K) f0 = false.
Hypothesis Hcell : cell_cross_section td dom 0 0 = Ok xs.

(** No clock: the distance to census is below nothing. *)
Definition clockless (p : particle K) : Prop := forall t d : F K, flt (fmul (get_speed p) t) d = false.
Definition flying (c d : vec K) (p : particle K) : Prop :=
  p_coordinate p = c /\ p_direction p = d /\ p_cell p = 0 /\ p_energy_group p = 0 /\ p_num_mean_free_paths p = f1 /\ clockless p.

Lemma leg_nearest c d c' d' planes ds i len conn fa pl (p : particle K) : leg c d c' d' planes ds i len conn fa pl ->
  p_coordinate p = c -> p_direction p = d -> p_cell p = 0 -> nearest_facet p m = Ok ((i, len), p).
Proof using.
  intros L <- <- Ec. unfold nearest_facet, mct_nf_3dg. rewrite Ec, (lg_planes _ _ _ _ _ _ _ _ _ _ _ L). cbn [rbind]. cbn [mct_nf_loop].
  rewrite Ec. fold (tolerance_at (p_coordinate p)). rewrite (lg_distances _ _ _ _ _ _ _ _ _ _ _ L). cbn [rbind].
  rewrite (lg_nearest _ _ _ _ _ _ _ _ _ _ _ L). unfold check_nearest_validity. cbn [snd].
  rewrite (lg_found _ _ _ _ _ _ _ _ _ _ _ L), (lg_positive _ _ _ _ _ _ _ _ _ _ _ L), andb_false_r. cbn [orb rbind fst snd].
  rewrite (lg_max _ _ _ _ _ _ _ _ _ _ _ L), (lg_huge _ _ _ _ _ _ _ _ _ _ _ L). reflexivity.
Qed.

Lemma leg_outcome c d c' d' planes ds i len conn fa pl (p : particle K) : leg c d c' d' planes ds i len conn fa pl -> flying c d p ->
  exists q, outcome_after dom p (get_speed p) false xs = Ok (OutFacetCrossing, q) /\
    p_coordinate q = c' /\ p_direction q = d /\ p_cell q = 0 /\ p_energy_group q = 0 /\ p_num_mean_free_paths q = f1 /\ p_facet q = i /\
    p_kinetic_energy q = p_kinetic_energy p.
Proof using Hxs Hmfp H10.
  intros L (Ec & Ed & El & Eg & En & Hs). unfold outcome_after. rewrite Hxs. fold mfp.
  change (p_num_mean_free_paths (set_mean_free_path (set_total_cross_section p xs) mfp)) with (p_num_mean_free_paths p). rewrite En, H10.
  set (p1 := set_mean_free_path (set_total_cross_section p xs) mfp).
  change (p_num_mean_free_paths p1) with (p_num_mean_free_paths p). change (p_mean_free_path p1) with mfp. change (p_time_to_census p1) with (p_time_to_census p). rewrite En.
  unfold handler_update at 3. cbn [fst handler_default]. rewrite Hmfp. unfold handler_update at 2. cbn [fst]. rewrite Hs.
  fold m. rewrite (leg_nearest _ _ _ _ _ _ _ _ _ _ _ p1 L Ec Ed El). cbn [rbind snd fst].
  unfold handler_update. cbn [fst]. rewrite (lg_shorter _ _ _ _ _ _ _ _ _ _ _ L).
  rewrite (lg_nonneg _ _ _ _ _ _ _ _ _ _ _ L). cbn [rassert rbind].
  cbn [p_segment_path_length set_last_event set_facet set_num_mean_free_paths set_segment_path_length set_normal_dot].
  rewrite (lg_zero _ _ _ _ _ _ _ _ _ _ _ L). eexists. split; [reflexivity|].
  cbn. rewrite Ec, Ed. split; [exact (lg_end _ _ _ _ _ _ _ _ _ _ _ L)|]. split; [reflexivity|]. split; [exact El|]. split; [exact Eg|].
  split; [|split; reflexivity]. rewrite En. exact (lg_paths _ _ _ _ _ _ _ _ _ _ _ L).
Qed.

(** What the shared arrays may hold when such a particle is tracked. *)
Definition fair_memory (mm : mem K) : Prop :=
  (exists v, vec_get (m_cache mm) 0 = Ok v /\ (flt f0 v = false \/ v = xs)) /\ exists w, vec_get (m_flux mm) 0 = Ok w.

Lemma set_first {A} (l : list A) v x : vec_get l 0 = Ok x -> vec_get (list_set l (N.to_nat 0) v) 0 = Ok v.
Proof using. destruct l; [discriminate|]. reflexivity. Qed.

Lemma leg_step c d c' d' planes ds i len conn fa pl cfuel (p : particle K) b extra mm : leg c d c' d' planes ds i len conn fa pl -> flying c d p -> fair_memory mm ->
  exists p' mm', run_seq 1 (track_step cfuel td dom p b extra) mm = Ok ((true, p', binc b ENumSegments 1, extra), mm') /\
    flying c' d' p' /\ fair_memory mm'.
Proof using Hxs Hmfp H10 H1 Hcell.
  intros L Hf ((v & Ev & Hv) & (w & Ew)). pose proof Hf as (Ec & Ed & El & Eg & En & Hs).
  destruct (leg_outcome _ _ _ _ _ _ _ _ _ _ _ p L Hf) as (q & Eo & Qc & Qd & Ql & Qg & Qn & Qf & Qe).
  assert (After : exists p', after_segment cfuel td dom OutFacetCrossing (set_num_segments q (fadd (p_num_segments q) f1)) (binc b ENumSegments 1) extra
      = Ok (true, p', binc b ENumSegments 1, extra) /\ flying c' d' p').
  { cbn [after_segment]. unfold on_facet. cbn [p_cell p_facet set_num_segments]. fold m. rewrite Ql, (lg_conn _ _ _ _ _ _ _ _ _ _ _ L). cbn [rbind].
    rewrite Qf, (lg_adj _ _ _ _ _ _ _ _ _ _ _ L). cbn [rbind]. unfold facet_crossing_event. rewrite (lg_reflects _ _ _ _ _ _ _ _ _ _ _ L). cbn [rbind].
    cbn [p_last_event set_last_event p_cell p_facet set_num_segments]. rewrite Ql, (lg_planes _ _ _ _ _ _ _ _ _ _ _ L). cbn [rbind].
    rewrite Qf, (lg_plane _ _ _ _ _ _ _ _ _ _ _ L). cbn [rbind]. unfold reflect_particle. cbn [p_direction set_last_event set_num_segments].
    rewrite Qd. fold (normal pl). rewrite (lg_outward _ _ _ _ _ _ _ _ _ _ _ L), (lg_turn _ _ _ _ _ _ _ _ _ _ _ L).
    eexists. split; [reflexivity|]. unfold flying, clockless, get_speed. cbn. rewrite Qe. repeat split; try assumption. }
  destruct After as (p' & Ea & Hp').
  unfold track_step, outcome. rewrite En, H1. unfold get_xs. rewrite El, Eg. cbn [pbind run_seq]. change (slot 1 0 0) with 0. rewrite Ev. cbn [rbind].
  assert (G : forall mm0, (exists w, vec_get (m_flux mm0) 0 = Ok w) ->
    run_seq 1 (pbind (pbind (Ret xs) (fun xs0 => lift (outcome_after dom p (get_speed p) false xs0))) (fun op =>
       let '(o, p0) := op in let b0 := binc b ENumSegments 1 in let p2 := set_num_segments p0 (fadd (p_num_segments p0) f1) in
       AddFlux (p_cell p2) (p_energy_group p2) (fmul (p_segment_path_length p2) (p_weight p2)) (lift (after_segment cfuel td dom o p2 b0 extra)))) mm0
    = Ok ((true, p', binc b ENumSegments 1, extra), mkMem (m_cache mm0) (list_set (m_flux mm0) (N.to_nat 0)
        (fadd (match vec_get (m_flux mm0) 0 with Ok x => x | _ => f0 end) (fmul (p_segment_path_length q) (p_weight q)))))).
  { intros mm0 (w0 & Ew0). cbn [pbind]. rewrite Eo. cbn [lift pbind]. cbv zeta. cbn [p_cell p_energy_group p_segment_path_length p_weight set_num_segments run_seq].
    rewrite Ql, Qg. change (slot 1 0 0) with 0. rewrite Ew0. cbn [rbind]. rewrite Ea. reflexivity. }
  destruct (flt f0 v) eqn:Hp.
  - destruct Hv as [Hv|Hv]; [discriminate|]. subst v. cbn [pbind] in G |- * . rewrite (G mm (ex_intro _ w Ew)).
    eexists. eexists. split; [reflexivity|]. split; [exact Hp'|]. split; cbn [m_cache m_flux].
    + exists xs. split; [exact Ev|right; reflexivity].
    + eexists. eapply set_first. exact Ew.
  - rewrite Hcell. cbn [lift pbind run_seq]. change (slot 1 0 0) with 0. rewrite Ev. cbn [rbind pbind] in G |- * .
    rewrite G by (exists w; exact Ew). eexists. eexists. split; [reflexivity|]. split; [exact Hp'|]. split; cbn [m_cache m_flux].
    + exists xs. split; [eapply set_first; exact Ev|right; reflexivity].
    + eexists. eapply set_first. exact Ew.
Qed.

(** Two legs that lead into each other: the track never ends. *)
Theorem bounce_forever cA dA cB dB pls1 ds1 i1 len1 conn1 fa1 pl1 pls2 ds2 i2 len2 conn2 fa2 pl2 :
  leg cA dA cB dB pls1 ds1 i1 len1 conn1 fa1 pl1 -> leg cB dB cA dA pls2 ds2 i2 len2 conn2 fa2 pl2 ->
  forall cfuel fuel p b extra mm, flying cA dA p \/ flying cB dB p -> fair_memory mm ->
  run_seq 1 (cycle_tracking_function fuel cfuel td dom p b extra) mm = NoFuel.
Proof using Hxs Hmfp H10 H1 Hcell.
  intros L1 L2 cfuel fuel. induction fuel as [|fuel IH]; intros p b extra mm Hp Hm; [reflexivity|].
  cbn [cycle_tracking_function].
  assert (S : exists p' mm', run_seq 1 (track_step cfuel td dom p b extra) mm = Ok ((true, p', binc b ENumSegments 1, extra), mm') /\
    (flying cA dA p' \/ flying cB dB p') /\ fair_memory mm').
  { destruct Hp as [Hp|Hp].
    - destruct (leg_step _ _ _ _ _ _ _ _ _ _ _ cfuel p b extra mm L1 Hp Hm) as (p' & mm' & E & A & B). exists p', mm'. auto.
    - destruct (leg_step _ _ _ _ _ _ _ _ _ _ _ cfuel p b extra mm L2 Hp Hm) as (p' & mm' & E & A & B). exists p', mm'. auto. }
  destruct S as (p' & mm' & E & A & B). 
  rewrite run_seq_pbind, E. cbn [rbind]. exact (IH p' _ _ _ A B).
Qed.
End Bounce.
