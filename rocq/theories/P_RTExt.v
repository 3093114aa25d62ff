(** * Proofs: the elements of the extension packages, written and read *)
From Coq Require Import ZArith Reals Lra.
From Verif Require Import GoBase GoNum GoUtf8 GoFloat Types XmlTypes M_Core M_Errors M_Text M_Xml M_Decode M_Printer M_Encode
  S_Xml S_Printer S_Text S_Core S_Geom S_Strconv S_RoundTrip P_Xml P_Text P_Core P_Strconv P_State P_RTBase P_RTText P_RTAttr GoStrconv.

(** ** What is read *)
Section Image.
  Context (p : nat).
  Definition rt_texg (g : Tex2DGroup) := mkTG (tg_id g) (tg_tex g) (map (fun c => (rf p (fst c), rf p (snd c))) (tg_coords g)).
  Definition rt_comp (g : CompositeMaterials) := mkCM (cm_id g) (cm_mat g) (cm_indices g) (map (map (rf p)) (cm_comps g)).
  Definition rt_slice (s : Slice) := mkSlice (rf p (sl_top s)) (map (fun v => P2 (rf p (p2x v)) (rf p (p2y v))) (sl_verts s)) (sl_polys s).
  Definition rt_stack (g : SliceStack) :=
    mkSS (ss_id g) (if feqb (ss_bottom g) f_zero then f_zero else rf p (ss_bottom g)) (map rt_slice (ss_slices g)) (ss_refs g).
  Definition beam_read (g : BeamLattice) (b : Beam) : Beam * (bool * bool) :=
    let w1 := fltb f_zero (bm_r1 b) && negb (feqb (bm_r1 b) (bl_radius g)) in
    let w2 := fltb f_zero (bm_r2 b) && negb (feqb (bm_r2 b) (bl_radius g)) in
    let h1 := negb (bm_c1 b =? bl_cap g)%N in let h2 := negb (bm_c2 b =? bl_cap g)%N in
    (mkBeam (bm_i1 b) (bm_i2 b) (if w1 then rf p (bm_r1 b) else f_zero) (if w2 then rf p (bm_r2 b) else f_zero)
       (if h1 then bm_c1 b else 0%N) (if h2 then bm_c2 b else 0%N), (h1, h2)).
  Definition rt_head (g : BeamLattice) (bs : list Beam) (ss : list BeamSet) :=
    mkBL (bl_clip g) (bl_clipmesh g) (bl_repmesh g) bs ss (rf p (bl_minlen g)) (rf p (bl_radius g)) (bl_cap g).
  Definition rt_beam (g : BeamLattice) (b : Beam) : Beam := beam_of (rt_head g [] []) (beam_read g b).
  Definition rt_lattice (g : BeamLattice) := rt_head g (map (rt_beam g) (bl_beams g)) (bl_sets g).
  Definition rt_ext (x : ExtElem) : ExtElem :=
    match x with
    | XTex2DGroup g => XTex2DGroup (rt_texg g)
    | XComposite g => XComposite (rt_comp g)
    | XSliceStack g => XSliceStack (rt_stack g)
    | XBeamLattice g => XBeamLattice (rt_lattice g)
    | _ => x
    end.
End Image.
Local Opaque parse_rgba format_rgba get_u32 get_f32 fmt_dec format_f parse_u32 parse_float fields sjoin u32_fields f32_fields upd_ext get_ext
  new_tex_type tex_type_string new_tile tile_string new_filter filter_string new_blend blend_string new_clip clip_string new_cap cap_string
  fltb feqb attrs_loop rf.
Ltac go := repeat (progress (unfold is_attr, lattr, lname, seq, ffmt, coord_attr, texg_attr, tex_attr, composites_attr, composite_attr, multis_attr,
  multi_attr, stack_attr, sliceref_attr, svert_attr, seg_attr, lattice_attr, beam_attr, set_attr; cbn)).
Ltac at1 := go; rewrite ?get_u32_dec, ?get_f32_fmt by assumption; go; reflexivity.
Ltac at_ := eapply al_cons; [at1|].
Ltac nm := apply name_ok; reflexivity.
Lemma in_mid {A} (P : A -> Prop) l d x r : Forall P l -> l = d ++ x :: r -> P x.
Proof. intros F ->. rewrite Forall_forall in F. apply F, in_elt. Qed.

Section Ext.
  Context (reg : Reg) (isroot : bool) (path : string) (e : Env) (p : nat) (l : loc) (PE : ExtElem -> DSt -> Prop).
  Context (pe_get : forall x s, PE x s -> get_ext path l s = Some x).
  Context (pe_upd : forall x s f, PE x s -> PE (f x) (upd_ext path l f s)).
  Context (pe_slice : forall x s v, PE x s -> PE x (with_slice v s)).
  Context (pe_set : forall x s v, PE x s -> PE x (with_set v s)).
  Notation Tr := (Tr reg isroot path e).
  Notation known := (knows reg).
  Ltac leaf := intros s Hs; eexists _, _, _, _; split; [reflexivity|]; split; [|split; [reflexivity|]].
  Ltac loop H := go; rewrite H; reflexivity.

  (** *** materials *)
  Lemma colors_read id cs : Forall ColorFits cs ->
    Tr (KExt l XkColorGroup) true (map (fun c => start_op (mkName ns_materials "color") [lattr "color" (format_rgba c)]) cs)
      (PE (XColorGroup (mkCG id []))) (PE (XColorGroup (mkCG id cs))).
  Proof.
    intros F. apply (tr_map _ _ _ _ _ _ _ (fun d => PE (XColorGroup (mkCG id d)))). intros d c r E. pose proof (in_mid _ _ _ _ _ F E) as Fc.
    apply (tr_empty _ _ _ _ _ (KExt l XkColor)); [reflexivity|]. leaf.
    - go. rewrite (rgba_read c Fc). reflexivity.
    - exact (pe_upd _ _ (on_color (fun g => mkCG (cg_id g) (cg_colors g ++ [c]))) Hs).
  Qed.
  Lemma coords_read id tex cs : Forall (fun c => Num (fst c) /\ Num (snd c)) cs ->
    Tr (KExt l XkTexGroup) true (map (fun c => start_op (mkName ns_materials "tex2coord") [lattr "u" (ffmt p (fst c)); lattr "v" (ffmt p (snd c))]) cs)
      (PE (XTex2DGroup (mkTG id tex []))) (PE (XTex2DGroup (mkTG id tex (map (fun c => (rf p (fst c), rf p (snd c))) cs)))).
  Proof.
    intros F. apply (tr_map _ _ _ _ _ _ _ (fun d => PE (XTex2DGroup (mkTG id tex (map (fun c => (rf p (fst c), rf p (snd c))) d))))). intros d c r E.
    pose proof (in_mid _ _ _ _ _ F E) as [F1 F2].
    assert (H : AL coord_attr (f_zero, f_zero) [lattr "u" (ffmt p (fst c)); lattr "v" (ffmt p (snd c))] (rf p (fst c), rf p (snd c))).
    { at_. at_. apply al_nil. }
    apply (tr_empty _ _ _ _ _ (KExt l XkCoord)); [reflexivity|]. leaf.
    - cbn. rewrite H. reflexivity.
    - rewrite map_app. exact (pe_upd _ _ (on_texg (fun g => mkTG (tg_id g) (tg_tex g) (tg_coords g ++ [(rf p (fst c), rf p (snd c))]))) Hs).
  Qed.
  Lemma composites_read id mat ix cs : Forall (Forall Num) cs ->
    Tr (KExt l XkComposites) true (map (fun c => start_op (mkName ns_materials "composite") [lattr "values" (sjoin " " (map (ffmt p) c))]) cs)
      (PE (XComposite (mkCM id mat ix []))) (PE (XComposite (mkCM id mat ix (map (map (rf p)) cs)))).
  Proof.
    intros F. apply (tr_map _ _ _ _ _ _ _ (fun d => PE (XComposite (mkCM id mat ix (map (map (rf p)) d))))). intros d c r E. pose proof (in_mid _ _ _ _ _ F E) as Fc.
    assert (H : AL composite_attr [] [lattr "values" (sjoin " " (map (ffmt p) c))] (map (rf p) c)).
    { eapply al_cons; [|apply al_nil]. go. unfold ffmt. rewrite f32_list by assumption. reflexivity. }
    apply (tr_empty _ _ _ _ _ (KExt l XkComposite)); [reflexivity|]. leaf.
    - cbn. rewrite H. reflexivity.
    - rewrite map_app. exact (pe_upd _ _ (on_comp (fun g => mkCM (cm_id g) (cm_mat g) (cm_indices g) (cm_comps g ++ [map (rf p) c]))) Hs).
  Qed.
  Lemma multis_read id pids bl cs : Forall (Forall U32) cs ->
    Tr (KExt l XkMultis) true (map (fun c => start_op (mkName ns_materials "multi") [lattr "pindices" (sjoin " " (map fmt_dec c))]) cs)
      (PE (XMulti (mkMP id pids bl []))) (PE (XMulti (mkMP id pids bl cs))).
  Proof.
    intros F. apply (tr_map _ _ _ _ _ _ _ (fun d => PE (XMulti (mkMP id pids bl d)))). intros d c r E. pose proof (in_mid _ _ _ _ _ F E) as Fc.
    assert (H : AL multi_attr [] [lattr "pindices" (sjoin " " (map fmt_dec c))] c).
    { eapply al_cons; [|apply al_nil]. go. rewrite u32_list by assumption. reflexivity. }
    apply (tr_empty _ _ _ _ _ (KExt l XkMulti)); [reflexivity|]. leaf.
    - cbn. rewrite H. reflexivity.
    - exact (pe_upd _ _ (on_multi (fun g => mkMP (mp_id g) (mp_pids g) (mp_blend g) (mp_multis g ++ [c]))) Hs).
  Qed.

  (** *** slices *)
  Lemma sverts_read x top vs : Forall (fun v => Num (p2x v) /\ Num (p2y v)) vs ->
    Tr (KExt l XkSVerts) true (map (fun v => start_op (mkName ns_slices "vertex") [lattr "x" (ffmt p (p2x v)); lattr "y" (ffmt p (p2y v))]) vs)
      (fun s => PE x s /\ s_slice s = mkSlice top [] []) (fun s => PE x s /\ s_slice s = mkSlice top (map (fun v => P2 (rf p (p2x v)) (rf p (p2y v))) vs) []).
  Proof.
    intros F. apply (tr_map _ _ _ _ _ _ _ (fun d s => PE x s /\ s_slice s = mkSlice top (map (fun v => P2 (rf p (p2x v)) (rf p (p2y v))) d) [])). intros d c r E.
    pose proof (in_mid _ _ _ _ _ F E) as [F1 F2].
    assert (H : AL svert_attr (P2 f_zero f_zero) [lattr "x" (ffmt p (p2x c)); lattr "y" (ffmt p (p2y c))] (P2 (rf p (p2x c)) (rf p (p2y c)))).
    { at_. at_. apply al_nil. }
    apply (tr_empty _ _ _ _ _ (KExt l XkSVert)); [reflexivity|]. leaf.
    - cbn. rewrite H. reflexivity.
    - destruct Hs as [Hs Es]. split; [apply pe_slice, Hs|]. rewrite map_app. cbn. rewrite Es. reflexivity.
  Qed.
  Definition SegFits (s : Segment) := U32 (sg_v2 s) /\ U32 (sg_pid s) /\ U32 (sg_p1 s) /\ U32 (sg_p2 s) /\ (sg_pid s = 0%N -> sg_p1 s = 0%N /\ sg_p2 s = 0%N).
  Lemma seg_read g : SegFits g -> exists h, AL seg_attr (mkSeg 0 0 0 0, (false, false)) (segment_attrs g) (g, h).
  Proof.
    intros (H1 & H2 & H3 & H4 & H5). unfold segment_attrs. destruct g as [v2 pid p1 p2]. cbn [sg_v2 sg_pid sg_p1 sg_p2] in *. destruct (N.eqb_spec pid 0) as [->|N].
    - destruct (H5 eq_refl) as [-> ->]. eexists. at_. apply al_nil.
    - destruct (N.eqb_spec p1 p2) as [->|N2]; cbn [negb opt app]; eexists; at_; at_; at_; [|at_]; apply al_nil.
  Qed.
  Lemma segs_read x top vs ps st gs : Forall SegFits gs ->
    Tr (KExt l XkPoly) true (map (fun s => start_op (mkName ns_slices "segment") (segment_attrs s)) gs)
      (fun s => PE x s /\ s_slice s = mkSlice top vs (ps ++ [mkPoly st []])) (fun s => PE x s /\ s_slice s = mkSlice top vs (ps ++ [mkPoly st gs])).
  Proof.
    intros F. apply (tr_map _ _ _ _ _ _ _ (fun d s => PE x s /\ s_slice s = mkSlice top vs (ps ++ [mkPoly st d]))). intros d c r E.
    pose proof (in_mid _ _ _ _ _ F E) as Fc. destruct (seg_read c Fc) as (h & H).
    apply (tr_empty _ _ _ _ _ (KExt l XkSeg)); [reflexivity|]. leaf.
    - cbn. rewrite H. reflexivity.
    - destruct Hs as [Hs Es]. split; [apply pe_slice, Hs|]. cbn. rewrite Es. cbn. rewrite upd_last_snoc. reflexivity.
  Qed.
  Lemma polys_read x top vs ps : Forall (fun q => U32 (pg_start q) /\ Forall SegFits (pg_segs q)) ps ->
    Tr (KExt l XkSlice) false (write_polygons ps)
      (fun s => PE x s /\ s_slice s = mkSlice top vs []) (fun s => PE x s /\ s_slice s = mkSlice top vs ps).
  Proof.
    intros F. unfold write_polygons. apply tr_skip. eapply tr_app; [|apply tr_skip, tr_nil; intros s Hs; exact Hs].
    apply (tr_list _ _ _ _ _ _ _ (fun d s => PE x s /\ s_slice s = mkSlice top vs d)). intros d c r E. pose proof (in_mid _ _ _ _ _ F E) as [Fc Fs].
    eapply (tr_element _ _ _ _ _ (KExt l XkPoly)); [reflexivity| |apply tr_auto, (segs_read x top vs d (pg_start c)), Fs|].
    - intros s [Hs Es]. eexists _, _, _. split; [reflexivity|]. split.
      + go. rewrite get_u32_dec by exact Fc. go. reflexivity.
      + split; [apply pe_slice, Hs|]. cbn. rewrite Es. reflexivity.
    - intros s Hs. eexists. split; [reflexivity|]. destruct c; exact Hs.
  Qed.
  Definition SliceFits (s : Slice) := Num (sl_top s) /\ Forall (fun v => Num (p2x v) /\ Num (p2y v)) (sl_verts s) /\
    Forall (fun q => U32 (pg_start q) /\ Forall SegFits (pg_segs q)) (sl_polys s).
  Lemma slices_read id zb refs sls : Forall SliceFits sls ->
    Tr (KExt l XkStack) false (flat_map (write_slice p) sls)
      (PE (XSliceStack (mkSS id zb [] refs))) (PE (XSliceStack (mkSS id zb (map (rt_slice p) sls) refs))).
  Proof.
    intros F. apply (tr_list _ _ _ _ _ _ _ (fun d => PE (XSliceStack (mkSS id zb (map (rt_slice p) d) refs)))). intros d c r E.
    pose proof (in_mid _ _ _ _ _ F E) as (F1 & F2 & F3).
    set (X := XSliceStack (mkSS id zb (map (rt_slice p) d) refs)).
    apply (tr_element _ _ _ _ _ (KExt l XkSlice) _ _ _ _ (fun s => PE X s /\ s_slice s = mkSlice (rf p (sl_top c)) [] [])
             (fun s => PE X s /\ s_slice s = rt_slice p c)); [reflexivity| |eapply tr_app; [|apply (polys_read X (rf p (sl_top c)) (map (fun v => P2 (rf p (p2x v)) (rf p (p2y v))) (sl_verts c)) (sl_polys c) F3)]|].
    - intros s Hs. eexists _, _, _. split; [reflexivity|]. split.
      + go. rewrite get_f32_fmt by exact F1. go. reflexivity.
      + cbn. split; [apply pe_slice, pe_slice, Hs|reflexivity].
    - eapply (tr_element _ _ _ _ _ (KExt l XkSVerts)); [reflexivity| |apply tr_auto_skip, (sverts_read X (rf p (sl_top c)) (sl_verts c) F2)|].
      + intros s Hs. eexists _, _, _. split; [reflexivity|]. split; [reflexivity|]. exact Hs.
      + intros s Hs. eexists. split; [reflexivity|]. exact Hs.
    - intros s [Hs Es]. eexists. split; [reflexivity|]. cbn. rewrite Es. rewrite map_app.
      exact (pe_upd _ _ (on_stack (fun g => mkSS (ss_id g) (ss_bottom g) (ss_slices g ++ [rt_slice p c]) (ss_refs g))) Hs).
  Qed.
  Lemma refs_read id zb sls refs : Forall (fun r => U32 (sr_id r) /\ XmlText (sr_path r)) refs ->
    Tr (KExt l XkStack) true (map (fun r => start_op (mkName ns_slices "sliceref") [lattr "slicestackid" (fmt_dec (sr_id r)); lattr "slicepath" (sr_path r)]) refs)
      (PE (XSliceStack (mkSS id zb sls []))) (PE (XSliceStack (mkSS id zb sls refs))).
  Proof.
    intros F. apply (tr_map _ _ _ _ _ _ _ (fun d => PE (XSliceStack (mkSS id zb sls d)))). intros d c r E. pose proof (in_mid _ _ _ _ _ F E) as [Fc _].
    assert (H : AL sliceref_attr (mkSRef 0 "") [lattr "slicestackid" (fmt_dec (sr_id c)); lattr "slicepath" (sr_path c)] c).
    { eapply al_cons; [at1|]. eapply al_cons; [at1|]. destruct c. apply al_nil. }
    apply (tr_empty _ _ _ _ _ (KExt l XkSliceRef)); [reflexivity|]. leaf.
    - cbn. rewrite H. reflexivity.
    - exact (pe_upd _ _ (on_stack (fun g => mkSS (ss_id g) (ss_bottom g) (ss_slices g) (ss_refs g ++ [c]))) Hs).
  Qed.

  (** *** beam lattices *)
  Definition BeamFits (g : BeamLattice) (b : Beam) := U32 (bm_i1 b) /\ U32 (bm_i2 b) /\ RadiiFit p g b /\ (bm_c1 b <= 2)%N /\ (bm_c2 b <= 2)%N.
  Lemma num_own x : OwnRadius p x -> Num x.
  Proof. intros (H & _). destruct x; [reflexivity| | |exact H]; destruct H. Qed.
  Lemma radii_num g b : Num (bl_radius g) -> RadiiFit p g b -> Num (bm_r1 b) /\ Num (bm_r2 b).
  Proof.
    intros H [H1 H2]. split.
    - destruct H1 as [->|[H1 _]]; [exact H|apply num_own, H1].
    - destruct H2 as [[_ ->]|[H2 _]]; [exact H|apply num_own, H2].
  Qed.
  Ltac caps := repeat match goal with H : new_cap _ = Some _ |- _ => rewrite H | H : new_clip _ = Some _ |- _ => rewrite H | H : or0 _ = _ |- _ => rewrite H end.
  Ltac ato := eapply al_cons; [go; rewrite ?get_u32_dec, ?get_f32_fmt by assumption; go; caps; go; reflexivity|].
  Lemma beam_attrs_read g b : Num (bl_radius g) -> BeamFits g b -> AL beam_attr (beam_zero, (false, false)) (beam_attrs p g b) (beam_read p g b).
  Proof.
    intros HR (H1 & H2 & H3 & H4 & H5). destruct (radii_num _ _ HR H3) as [R1 R2]. destruct (cap_read _ H4) as [C1 _]. destruct (cap_read _ H5) as [C2 _].
    unfold beam_attrs, beam_read. destruct (_ && _); destruct (_ && _); destruct (negb _); destruct (negb _); cbn [opt app]; repeat ato; apply al_nil.
  Qed.
  Lemma beams_read g ss bs : Num (bl_radius g) -> Forall (BeamFits g) bs ->
    Tr (KExt l XkBeams) true (map (fun b => start_op (mkName ns_beam "beam") (beam_attrs p g b)) bs)
      (PE (XBeamLattice (rt_head p g [] ss))) (PE (XBeamLattice (rt_head p g (map (rt_beam p g) bs) ss))).
  Proof.
    intros HR F. apply (tr_map _ _ _ _ _ _ _ (fun d => PE (XBeamLattice (rt_head p g (map (rt_beam p g) d) ss)))). intros d c r E.
    pose proof (beam_attrs_read g c HR (in_mid _ _ _ _ _ F E)) as H.
    apply (tr_empty _ _ _ _ _ (KExt l XkBeam)); [reflexivity|]. leaf.
    - cbn. rewrite H. reflexivity.
    - rewrite map_app. exact (pe_upd _ _ (on_lattice (fun g' => mkBL (bl_clip g') (bl_clipmesh g') (bl_repmesh g')
                   (bl_beams g' ++ [beam_of g' (beam_read p g c)]) (bl_sets g') (bl_minlen g') (bl_radius g') (bl_cap g'))) Hs).
  Qed.
  Lemma brefs_read x rs nm id : Forall U32 rs ->
    Tr (KExt l XkSet) true (map (fun r => start_op (mkName ns_beam "ref") [lattr "index" (fmt_dec r)]) rs)
      (fun s => PE x s /\ s_set s = mkBS [] nm id) (fun s => PE x s /\ s_set s = mkBS rs nm id).
  Proof.
    intros F. apply (tr_map _ _ _ _ _ _ _ (fun d s => PE x s /\ s_set s = mkBS d nm id)). intros d c r E. pose proof (in_mid _ _ _ _ _ F E) as Fc. cbv beta in Fc.
    apply (tr_empty _ _ _ _ _ (KExt l XkRef)); [reflexivity|]. leaf.
    - go. rewrite get_u32_dec by exact Fc. go. reflexivity.
    - destruct Hs as [Hs Es]. split; [apply pe_set, Hs|]. cbn. rewrite Es. reflexivity.
  Qed.
  Lemma sets_read g bs ss : Forall (fun b => Forall U32 (bs_refs b) /\ XmlText (bs_name b) /\ XmlText (bs_ident b)) ss ->
    Tr (KExt l XkSets) false
      (flat_map (fun b => element (mkName ns_beam "beamset")
         (opt (nonempty (bs_name b)) (lattr "name" (bs_name b)) ++ opt (nonempty (bs_ident b)) (lattr "identifier" (bs_ident b)))
         (auto (map (fun r => start_op (mkName ns_beam "ref") [lattr "index" (fmt_dec r)]) (bs_refs b)))) ss)
      (PE (XBeamLattice (rt_head p g bs []))) (PE (XBeamLattice (rt_head p g bs ss))).
  Proof.
    intros F. apply (tr_list _ _ _ _ _ _ _ (fun d => PE (XBeamLattice (rt_head p g bs d)))). intros d c r E. pose proof (in_mid _ _ _ _ _ F E) as (F1 & _ & _).
    set (X := XBeamLattice (rt_head p g bs d)).
    apply (tr_element _ _ _ _ _ (KExt l XkSet) _ _ _ _ (fun s => PE X s /\ s_set s = mkBS [] (bs_name c) (bs_ident c)) (fun s => PE X s /\ s_set s = c));
      [reflexivity| | |].
    - intros s Hs. eexists _, _, _. split; [reflexivity|]. split; [reflexivity|]. split; [apply pe_set, pe_set, Hs|]. cbn [s_set with_set]. unfold nonempty.
      destruct (seq_spec (bs_name c) "") as [->|N1]; destruct (seq_spec (bs_ident c) "") as [->|N2]; reflexivity.
    - apply tr_auto. destruct c as [rs nm id]. apply (brefs_read X rs nm id F1).
    - intros s [Hs Es]. eexists. split; [reflexivity|]. cbn. rewrite Es.
      exact (pe_upd _ _ (on_lattice (fun g => mkBL (bl_clip g) (bl_clipmesh g) (bl_repmesh g) (bl_beams g) (bl_sets g ++ [c]) (bl_minlen g) (bl_radius g) (bl_cap g))) Hs).
  Qed.

  (** *** A whole element, below an element whose decoder is [k] *)
  Context (k : DK) (Pre : DSt -> Prop) (ok : ExtElem -> bool) (HK : has_child k = true).
  Context (parent : forall s n sp xk x0, Pre s -> load reg (nspace n) = Some sp -> ext_decoder sp (nlocal n) = Some (xk, x0) -> ok x0 = true ->
    exists i s1, child reg isroot path k n s = COk i (KExt l xk) s1 /\ PE x0 s1).
  Context (ok_same : ok (XTexture2D (mkTex2D 0 "" 0 0 0 0)) = true /\ ok (XColorGroup (mkCG 0 [])) = true /\ ok (XTex2DGroup (mkTG 0 0 [])) = true /\
    ok (XComposite (mkCM 0 0 [] [])) = true /\ ok (XMulti (mkMP 0 [] [] [])) = true /\ ok (XSliceStack (mkSS 0 f_zero [] [])) = true).
  Lemma elem_read n sp xk x0 attrs x1 x2 inner : load reg (nspace n) = Some sp -> ext_decoder sp (nlocal n) = Some (xk, x0) -> ok x0 = true ->
    nspace n <> "" -> end_ path (KExt l xk) n = (fun s => Some s) ->
    (forall s, PE x0 s -> exists s2, start reg isroot path (KExt l xk) n attrs s = Some (s2, None) /\ PE x1 s2) ->
    Tr (KExt l xk) false inner (PE x1) (PE x2) -> Tr k false (element n attrs inner) Pre (PE x2).
  Proof.
    intros HL HD HO HN HE HS HI. assert (Q : qual e n = n). { unfold qual. destruct (seq_spec (nspace n) ""); [contradiction|reflexivity]. }
    apply (tr_element _ _ _ _ _ (KExt l xk) _ _ _ _ (PE x1) (PE x2)); [exact HK| |exact HI|].
    - rewrite Q. intros s Hs. destruct (parent s n sp xk x0 Hs HL HD HO) as (i & s1 & Ec & P1). destruct (HS s1 P1) as (s2 & E2 & P2). exists i, s1, s2. auto.
    - rewrite Q, HE. intros s Hs. eauto.
  Qed.
  Lemma ext_read x : ExtFits e known p x -> (forall g, x = XBeamLattice g -> ok (XBeamLattice lattice_zero) = true) ->
    Tr k false (write_ext p x) Pre (PE (rt_ext p x)).
  Proof.
    intros F HOK. destruct ok_same as (O1 & O2 & O3 & O4 & O5 & O6). destruct x as [t|g|g|g|g|g|g]; cbn [ExtFits write_ext rt_ext] in *.
    - destruct F as (K & _ & F1 & F2 & F3 & F4 & F5 & F6). unfold write_texture. apply tr_rel, tr_auto. apply load_mat in K.
      assert (H : AL tex_attr (mkTex2D 0 "" 0 0 0 0) ([lattr "id" (fmt_dec (tx_id t)); lattr "path" (tx_path t); lattr "contenttype" (tex_type_string (tx_ctype t))]
        ++ opt (negb (tx_tu t =? 0)%N) (lattr "tilestyleu" (tile_string (tx_tu t)))
        ++ opt (negb (tx_tv t =? 0)%N) (lattr "tilestylev" (tile_string (tx_tv t)))
        ++ opt (negb (tx_filter t =? 0)%N) (lattr "filter" (filter_string (tx_filter t)))) t).
      { destruct t as [id q ct tu tv fi]. cbn [tx_id tx_path tx_ctype tx_tu tx_tv tx_filter] in *.
        destruct (ctype_read _ F3) as [C1 _]. destruct (tile_read _ F4) as [C2 _]. destruct (tile_read _ F5) as [C3 _]. destruct (filter_read _ F6) as [C4 _].
        destruct (N.eqb_spec tu 0) as [->|]; destruct (N.eqb_spec tv 0) as [->|]; destruct (N.eqb_spec fi 0) as [->|]; cbn [negb opt app]; repeat ato; apply al_nil. }
      apply (tr_empty _ _ _ _ _ (KExt l XkTex)); [exact HK|]. intros s Hs.
      destruct (parent s (mkName ns_materials "texture2d") SpMat XkTex _ Hs K eq_refl O1) as (i & s1 & Ec & P1).
      eexists i, s1, _, _. split; [exact Ec|]. split; [|split; [reflexivity|]].
      + cbn. rewrite (pe_get _ _ P1). cbn [the_tex]. rewrite H. reflexivity.
      + exact (pe_upd _ _ (on_tex (fun _ => t)) P1).
    - destruct F as (K & _ & F1 & F2 & F3). unfold write_texgroup. apply load_mat in K.
      apply (elem_read _ SpMat XkTexGroup (XTex2DGroup (mkTG 0 0 [])) _ (XTex2DGroup (mkTG (tg_id g) (tg_tex g) []))); try reflexivity; [exact K|exact O3|discriminate| |apply tr_auto_skip, coords_read, F3].
      intros s Hs. assert (H : AL texg_attr (mkTG 0 0 []) [lattr "id" (fmt_dec (tg_id g)); lattr "texid" (fmt_dec (tg_tex g))] (mkTG (tg_id g) (tg_tex g) [])).
      { repeat ato. apply al_nil. }
      eexists. split; [|exact (pe_upd _ _ (on_texg (fun _ => _)) Hs)]. cbn. rewrite (pe_get _ _ Hs). cbn [the_texg]. rewrite H. reflexivity.
    - destruct F as (K & _ & F1 & F2). unfold write_colors. apply load_mat in K.
      apply (elem_read _ SpMat XkColorGroup (XColorGroup (mkCG 0 [])) _ (XColorGroup (mkCG (cg_id g) []))); try reflexivity; [exact K|exact O2|discriminate| |].
      + intros s Hs. eexists. split; [|exact (pe_upd _ _ (on_color (fun c => mkCG (cg_id g) (cg_colors c))) Hs)]. go. rewrite get_u32_dec by exact F1. reflexivity.
      + destruct g as [id cs]. apply tr_auto_skip, colors_read, F2.
    - destruct F as (K & _ & F1 & F2 & F3 & F4). unfold write_composite. apply load_mat in K.
      apply (elem_read _ SpMat XkComposites (XComposite (mkCM 0 0 [] [])) _ (XComposite (mkCM (cm_id g) (cm_mat g) (cm_indices g) []))); try reflexivity; [exact K|exact O4|discriminate| |apply tr_auto_skip, composites_read, F4].
      intros s Hs. assert (H : AL composites_attr (mkCM 0 0 [] []) [lattr "id" (fmt_dec (cm_id g)); lattr "matid" (fmt_dec (cm_mat g)); lattr "matindices" (sjoin " " (map fmt_dec (cm_indices g)))]
        (mkCM (cm_id g) (cm_mat g) (cm_indices g) [])).
      { ato. ato. eapply al_cons; [go; rewrite u32_list by assumption; reflexivity|]. apply al_nil. }
      eexists. split; [|exact (pe_upd _ _ (on_comp (fun _ => _)) Hs)]. cbn. rewrite (pe_get _ _ Hs). cbn [the_comp]. rewrite H. reflexivity.
    - destruct F as (K & _ & F1 & F2 & F3 & F4). unfold write_multi. apply load_mat in K.
      apply (elem_read _ SpMat XkMultis (XMulti (mkMP 0 [] [] [])) _ (XMulti (mkMP (mp_id g) (mp_pids g) (mp_blend g) []))); try reflexivity; [exact K|exact O5|discriminate| |].
      2: { destruct g as [id pids bl ms]. apply tr_auto_skip, multis_read, F4. }
      intros s Hs. assert (H : AL multis_attr (mkMP 0 [] [] []) [lattr "id" (fmt_dec (mp_id g)); lattr "pids" (sjoin " " (map fmt_dec (mp_pids g)));
          lattr "blendmethods" (sjoin " " (map blend_string (mp_blend g)))] (mkMP (mp_id g) (mp_pids g) (mp_blend g) [])).
      { ato. eapply al_cons; [go; rewrite u32_list by assumption; reflexivity|]. eapply al_cons; [|apply al_nil]. go. rewrite fields_join.
        - rewrite map_map. do 3 f_equal. rewrite <- (map_id (mp_blend g)) at 2. apply map_ext_in. intros b Hb. rewrite Forall_forall in F3. apply (blend_read b (F3 b Hb)).
        - apply Forall_map. eapply Forall_impl; [|exact F3]. apply blend_word. }
      eexists. split; [|exact (pe_upd _ _ (on_multi (fun _ => _)) Hs)]. cbn. rewrite (pe_get _ _ Hs). cbn [the_multi]. rewrite H. reflexivity.
    - destruct F as (K & _ & F1 & F2 & F3 & F4). unfold write_stack. apply load_slices in K.
      set (zb := if feqb (ss_bottom g) f_zero then f_zero else rf p (ss_bottom g)).
      apply (elem_read _ SpSlices XkStack (XSliceStack (mkSS 0 f_zero [] [])) _ (XSliceStack (mkSS (ss_id g) zb [] []))); try reflexivity; [exact K|exact O6|discriminate| |].
      2: { eapply tr_app; [apply (slices_read _ _ _ _ F3)|]. apply tr_auto. apply (refs_read _ _ _ _ F4). }
      intros s Hs. assert (H : AL stack_attr (mkSS 0 f_zero [] []) (lattr "id" (fmt_dec (ss_id g)) :: opt (negb (feqb (ss_bottom g) f_zero)) (lattr "zbottom" (ffmt p (ss_bottom g))))
         (mkSS (ss_id g) zb [] [])).
      { unfold zb. destruct (feqb (ss_bottom g) f_zero); cbn [negb opt]; repeat ato; apply al_nil. }
      eexists. split; [|exact (pe_upd _ _ (on_stack (fun _ => _)) Hs)]. cbn. rewrite (pe_get _ _ Hs). cbn [the_stack]. rewrite H. reflexivity.
    - destruct F as (K & _ & F1 & F2 & F3 & F4 & F5 & F6 & F7 & F8). unfold write_lattice. apply load_beam in K.
      apply (elem_read _ SpBeam XkLattice (XBeamLattice lattice_zero) _ (XBeamLattice (rt_head p g [] []))); try reflexivity; [exact K|apply (HOK g eq_refl)|discriminate| |].
      2: { eapply tr_app.
        - eapply (tr_element _ _ _ _ _ (KExt l XkBeams)); [reflexivity| |apply tr_auto_skip, (beams_read g [] (bl_beams g) F5 F7)|].
          + intros s Hs. eexists _, _, _. split; [reflexivity|]. split; [reflexivity|]. exact Hs.
          + intros s Hs. eexists. split; [reflexivity|]. exact Hs.
        - eapply (tr_element _ _ _ _ _ (KExt l XkSets)); [reflexivity| |apply (sets_read g (map (rt_beam p g) (bl_beams g)) (bl_sets g) F8)|].
          + intros s Hs. eexists _, _, _. split; [reflexivity|]. split; [reflexivity|]. exact Hs.
          + intros s Hs. eexists. split; [reflexivity|]. exact Hs. }
      intros s Hs. destruct (clip_read _ F1) as [C1 _]. destruct (cap_read _ F6) as [C2 _].
      assert (H : AL lattice_attr lattice_zero ([lattr "minlength" (ffmt p (bl_minlen g)); lattr "radius" (ffmt p (bl_radius g))]
         ++ opt (negb (bl_clip g =? 0)%N) (lattr "clippingmode" (clip_string (bl_clip g)))
         ++ opt (negb (bl_clipmesh g =? 0)%N) (lattr "clippingmesh" (fmt_dec (bl_clipmesh g)))
         ++ opt (negb (bl_repmesh g =? 0)%N) (lattr "representationmesh" (fmt_dec (bl_repmesh g)))
         ++ opt (negb (bl_cap g =? 0)%N) (lattr "cap" (cap_string (bl_cap g)))) (rt_head p g [] [])).
      { unfold rt_head. destruct g as [cl cm rm bs ss ml ra ca]. cbn [bl_clip bl_clipmesh bl_repmesh bl_minlen bl_radius bl_cap] in *.
        destruct (N.eqb_spec cl 0) as [->|]; destruct (N.eqb_spec cm 0) as [->|]; destruct (N.eqb_spec rm 0) as [->|]; destruct (N.eqb_spec ca 0) as [->|];
          cbn [negb opt app]; repeat ato; apply al_nil. }
      eexists. split; [|exact (pe_upd _ _ (on_lattice (fun _ => _)) Hs)]. cbn. rewrite (pe_get _ _ Hs). cbn [the_lattice]. rewrite H. reflexivity.
  Qed.
End Ext.

(** ** They print *)
Lemma lattr_fits e sk l v : (nonempty l && sall (fun c => in_name c && negb (ceq c ":")) l) && negb (seq l "xmlns") = true -> Writable sk v -> AttrFits e sk (lattr l v).
Proof.
  intros H W. apply andb_true_iff in H as [H1 H2]. split; [apply name_ok, H1|]. split; [left; split; [reflexivity|]|exact W].
  cbn. destruct (seq_spec l "xmlns"); [discriminate|assumption].
Qed.
Lemma fits_cons e sk a r : AttrFits e sk a -> Forall (AttrFits e sk) r -> Forall (AttrFits e sk) (a :: r).
Proof. constructor; assumption. Qed.
Lemma fits_opt e sk b a : AttrFits e sk a -> Forall (AttrFits e sk) (opt b a).
Proof. destruct b; intros H; [constructor; [exact H|]|]; constructor. Qed.
Lemma fits_app e sk a b : Forall (AttrFits e sk) a -> Forall (AttrFits e sk) b -> Forall (AttrFits e sk) (a ++ b).
Proof. intros H1 H2. apply Forall_app. split; assumption. Qed.
Lemma tag_declared e ns l : (nonempty l && sall (fun c => in_name c && negb (ceq c ":")) l) && negb (seq l "xmlns") = true -> Declared e ns -> TagFits e (mkName ns l).
Proof.
  intros H D. apply andb_true_iff in H as [H1 H2]. split; [apply name_ok, H1|]. split; [|right; right; exact D].
  cbn. destruct (seq_spec l "xmlns"); [discriminate|assumption].
Qed.
Lemma tag_core e l : (nonempty l && sall (fun c => in_name c && negb (ceq c ":")) l) && negb (seq l "xmlns") = true -> TagFits e (lname l).
Proof.
  intros H. apply andb_true_iff in H as [H1 H2]. split; [apply name_ok, H1|]. split; [|left; reflexivity].
  cbn. destruct (seq_spec l "xmlns"); [discriminate|assumption].
Qed.
Lemma safe_decs l : safe (sjoin " " (map fmt_dec l)) = true.
Proof. apply safe_join, Forall_map, Forall_forall. intros x _. apply safe_dec. Qed.
Lemma safe_floats p l : safe (sjoin " " (map (ffmt p) l)) = true.
Proof. apply safe_join, Forall_map, Forall_forall. intros x _. apply safe_float. Qed.
Ltac fit := repeat match goal with
  | |- Forall (AttrFits _ _) [] => constructor
  | |- Forall (AttrFits _ _) (_ :: _) => apply fits_cons
  | |- Forall (AttrFits _ _) (_ ++ _) => apply fits_app
  | |- Forall (AttrFits _ _) (opt _ _) => apply fits_opt
  | |- AttrFits _ _ (lattr _ _) => apply lattr_fits; [reflexivity|]
  | |- Writable _ (fmt_dec _) => apply safe_writable, safe_dec
  | |- Writable _ (ffmt _ _) => apply safe_writable, safe_float
  | |- Writable _ (matrix_string _) => apply safe_writable, safe_matrix
  | |- Writable _ (sjoin _ (map fmt_dec _)) => apply safe_writable, safe_decs
  | |- Writable _ (sjoin _ (map (ffmt _) _)) => apply safe_writable, safe_floats
  | H : ColorFits ?c |- Writable _ (format_rgba ?c) => apply safe_writable, safe_rgba, H
  | H : XmlText ?c |- Writable false ?c => exact H
  | H : (?c <= 2)%N |- Writable _ (cap_string ?c) => apply safe_writable, cap_read, H
  | H : (?c <= 2)%N |- Writable _ (clip_string ?c) => apply safe_writable, clip_read, H
  | H : (?c <= 2)%N |- Writable _ (tex_type_string ?c) => apply safe_writable, ctype_read, H
  | H : (?c <= 3)%N |- Writable _ (tile_string ?c) => apply safe_writable, tile_read, H
  | H : (?c <= 2)%N |- Writable _ (filter_string ?c) => apply safe_writable, filter_read, H
  end.
Section ExtPrints.
  Context (e : Env) (known : string -> Prop) (p : nat).
  Ltac tag := apply tag_declared; [reflexivity|assumption].
  Lemma prints_each {A} (P : A -> Prop) au sk (f : A -> op) l : Forall P l -> (forall x, P x -> Prints e au sk [f x]) -> Prints e au sk (map f l).
  Proof. intros F H. apply pr_map. eapply Forall_impl; [|exact F]. exact H. Qed.
  Lemma prints_all {A} (P : A -> Prop) au sk (f : A -> list op) l : Forall P l -> (forall x, P x -> Prints e au sk (f x)) -> Prints e au sk (flat_map f l).
  Proof. intros F H. apply pr_list. eapply Forall_impl; [|exact F]. exact H. Qed.
  Lemma ext_prints x : ExtFits e known p x -> Prints e false false (write_ext p x).
  Proof.
    intros F. destruct x as [t|g|g|g|g|g|g]; cbn [ExtFits write_ext] in *.
    - destruct F as (_ & D & F1 & F2 & F3 & F4 & F5 & F6). unfold write_texture. apply (pr_app e false false [OpRel _]); [apply pr_rel|].
      apply pr_auto, pr_empty; [tag|]. fit.
    - destruct F as (_ & D & F1 & F2 & F3). apply pr_element; [tag|fit|]. apply pr_auto_skip. apply (prints_each _ _ _ _ _ F3). intros c Hc. apply pr_empty; [tag|fit].
    - destruct F as (_ & D & F1 & F2). apply pr_element; [tag|fit|]. apply pr_auto_skip. apply (prints_each _ _ _ _ _ F2). intros c Hc. apply pr_empty; [tag|fit].
    - destruct F as (_ & D & F1 & F2 & F3 & F4). apply pr_element; [tag|fit|]. apply pr_auto_skip. apply (prints_each _ _ _ _ _ F4). intros c Hc. apply pr_empty; [tag|fit].
    - destruct F as (_ & D & F1 & F2 & F3 & F4). apply pr_element; [tag|fit|].
      + apply safe_writable, safe_join, Forall_map. eapply Forall_impl; [|exact F3]. intros b Hb. apply blend_read, Hb.
      + apply pr_auto_skip. apply (prints_each _ _ _ _ _ F4). intros c Hc. apply pr_empty; [tag|fit].
    - destruct F as (_ & D & F1 & F2 & F3 & F4). apply pr_element; [tag|fit|]. apply pr_app.
      + apply (prints_all _ _ _ _ _ F3). intros s (G1 & G2 & G3). apply pr_element; [tag|fit|]. apply pr_app.
        * apply pr_element; [tag|fit|]. apply pr_auto_skip. apply (prints_each _ _ _ _ _ G2). intros c Hc. apply pr_empty; [tag|fit].
        * apply pr_skip. apply (prints_all _ _ _ _ _ G3). intros q (S1 & S2). apply pr_element; [tag|fit|]. apply pr_auto.
          apply (prints_each _ _ _ _ _ S2). intros c Hc. apply pr_empty; [tag|]. unfold segment_attrs. destruct (_ =? _)%N; fit.
      + apply pr_auto. apply (prints_each _ _ _ _ _ F4). intros c [Hc1 Hc2]. apply pr_empty; [tag|fit].
    - destruct F as (_ & D & F1 & F2 & F3 & F4 & F5 & F6 & F7 & F8). apply pr_element; [tag|fit|]. apply pr_app.
      + apply pr_element; [tag|fit|]. apply pr_auto_skip. apply (prints_each _ _ _ _ _ F7). intros b (G1 & G2 & G3 & G4 & G5). apply pr_empty; [tag|]. unfold beam_attrs. fit.
      + apply pr_element; [tag|fit|]. apply (prints_all _ _ _ _ _ F8). intros b (G1 & G2 & G3). apply pr_element; [tag|fit|]. apply pr_auto.
        apply (prints_each _ _ _ _ _ G1). intros c Hc. apply pr_empty; [tag|fit].
  Qed.
End ExtPrints.

(** ** What is read is the same *)
Section ExtSame.
  Context (p : nat).
  Local Open Scope R_scope.
  Local Transparent fltb feqb.
  Lemma value_pos x : Finite x -> negative x = false -> 0 < value x -> fltb f_zero x = true.
  Proof. destruct x as [s|s| |s m ex]; cbn; intros F H V; try (exfalso; lra). subst s. reflexivity. Qed.
  Lemma value_zero y : Finite y -> feqb y f_zero = true -> value y = 0.
  Proof. destruct y as [s|s| |s m ex]; cbn; intros F H; try reflexivity. destruct s; discriminate. Qed.
  Lemma own_written x : OwnRadius p x -> fltb f_zero x = true /\ feqb (rf p x) f_zero = false.
  Proof.
    intros (F & Ng & V). assert (U : 0 < / 10 ^ p) by (apply Rinv_0_lt_compat, pow_lt; lra). split; [apply value_pos; [exact F|exact Ng|lra]|].
    destruct (feqb (rf p x) f_zero) eqn:E; [exfalso|reflexivity].
    assert (NX : Num x) by (destruct x; [reflexivity| | |exact F]; destruct F). destruct (rf_rounded p x NX) as [(_ & _ & kk & D & NF & NN)|[C _]]; [|exact (C F)].
    specialize (NN x F). rewrite (value_zero _ NF E) in NN. rewrite Ng in *. unfold decimal_value in *.
    set (u := / 10 ^ p) in *. assert (E1 : (1 * (IZR (Z.of_N kk) / 10 ^ p)) = IZR (Z.of_N kk) * u) by (unfold u; field; apply pow_nonzero; lra).
    rewrite E1 in *. assert (E2 : / 2 / 10 ^ p = u / 2) by (unfold u; field; apply pow_nonzero; lra). rewrite E2 in D. clear E1 E2.
    assert (K : (1 <= Z.of_N kk)%Z). { destruct (Z.le_gt_cases 1 (Z.of_N kk)) as [H|H]; [exact H|exfalso]. assert (Z.of_N kk = 0)%Z as Hz by lia. rewrite Hz in D. rewrite Rmult_0_l, Rminus_0_r, Rabs_pos_eq in D; lra. }
    apply IZR_le in K. assert (KU : u <= IZR (Z.of_N kk) * u) by nra. rewrite Rabs_minus_sym, Rminus_0_r, Rabs_pos_eq in NN by lra. lra.
  Qed.
  Lemma nan_eq x : fltb f_zero x = true -> feqb x x = true.
  Proof.
    destruct x as [s|s| |s m ex]; cbn; try discriminate; [destruct s; [discriminate|reflexivity]|]. intros _. unfold feqb, SFeqb, SFcompare.
    destruct s; rewrite Z.compare_refl, Pos.compare_refl; reflexivity.
  Qed.
  Lemma beam_same g b : Num (bl_radius g) -> RadiiFit p g b -> SameBeam p b (rt_beam p g b).
  Proof.
    intros HR [H1 H2]. unfold rt_beam, beam_read, beam_of, SameBeam. cbn [bm_i1 bm_i2 bm_r1 bm_r2 bm_c1 bm_c2 bl_radius bl_cap rt_head].
    split; [reflexivity|]. split; [reflexivity|].
    assert (W : fltb f_zero (bl_radius g) && negb (feqb (bl_radius g) (bl_radius g)) = false).
    { destruct (fltb f_zero (bl_radius g)) eqn:E; [|reflexivity]. rewrite (nan_eq _ E). reflexivity. }
    assert (R1 : (if feqb (if fltb f_zero (bm_r1 b) && negb (feqb (bm_r1 b) (bl_radius g)) then rf p (bm_r1 b) else f_zero) f_zero then rf p (bl_radius g)
      else if fltb f_zero (bm_r1 b) && negb (feqb (bm_r1 b) (bl_radius g)) then rf p (bm_r1 b) else f_zero) = rf p (bm_r1 b)).
    { destruct H1 as [->|[O N]].
      - rewrite W. change (feqb f_zero f_zero) with true. reflexivity.
      - destruct (own_written _ O) as [-> E]. rewrite N. cbn [andb negb]. rewrite E. reflexivity. }
    assert (N1 : Num (bm_r1 b)). { destruct H1 as [->|[(O & _) _]]; [exact HR|]. destruct (bm_r1 b); [reflexivity| | |exact O]; destruct O. }
    split; [rewrite R1; apply rf_rounded, N1|]. split.
    - rewrite R1. destruct H2 as [[E1 E2]|[O N]].
      + rewrite E2, W. change (feqb f_zero f_zero) with true. cbn [andb negb]. rewrite E1. apply rf_rounded, HR.
      + destruct (own_written _ O) as [-> E]. rewrite N. cbn [andb negb]. rewrite E. apply rf_rounded. destruct O as [O _]. destruct (bm_r2 b); [reflexivity| | |exact O]; destruct O.
    - split.
      + destruct (N.eqb_spec (bm_c1 b) (bl_cap g)) as [->|]; reflexivity.
      + destruct (N.eqb_spec (bm_c2 b) (bl_cap g)) as [->|]; reflexivity.
  Qed.
  Lemma forall2_map {A B} (P : A -> Prop) (R : A -> B -> Prop) f l : Forall P l -> (forall x, P x -> R x (f x)) -> Forall2 R l (map f l).
  Proof. intros F H. induction F as [|x l Hx F IH]; cbn; constructor; auto. Qed.
  Lemma ext_same e known x : ExtFits e known p x -> SameExt p x (rt_ext p x).
  Proof.
    destruct x as [t|g|g|g|g|g|g]; cbn [ExtFits rt_ext SameExt]; intros F; try reflexivity.
    - destruct F as (_ & _ & _ & _ & F). split; [reflexivity|]. split; [reflexivity|]. apply (forall2_map _ _ _ _ F). intros c [H1 H2]. split; apply rf_rounded; assumption.
    - destruct F as (_ & _ & _ & _ & _ & F). split; [reflexivity|]. split; [reflexivity|]. split; [reflexivity|]. apply (forall2_map _ _ _ _ F).
      intros c H. apply (forall2_map _ _ _ _ H). intros y Hy. apply rf_rounded, Hy.
    - destruct F as (_ & _ & _ & F2 & F3 & _). split; [reflexivity|]. split; [|split; [|reflexivity]].
      + cbn. destruct (feqb _ _) eqn:E; [right; split; [exact E|reflexivity]|left; apply rf_rounded, F2].
      + apply (forall2_map _ _ _ _ F3). intros s (G1 & G2 & _). split; [apply rf_rounded, G1|]. split; [|reflexivity].
        apply (forall2_map _ _ _ _ G2). intros v [H1 H2]. split; apply rf_rounded; assumption.
    - destruct F as (_ & _ & _ & _ & _ & F4 & F5 & _ & F7 & _). repeat (split; [reflexivity|]). split; [apply rf_rounded, F4|]. split; [apply rf_rounded, F5|]. split; [|reflexivity].
      apply (forall2_map _ _ _ _ F7). intros b (_ & _ & H & _). apply beam_same; assumption.
  Qed.
End ExtSame.
