(** * Proofs: the elements of the core specification, written and read *)
From Coq Require Import ZArith.
From Verif Require Import GoBase GoNum GoUtf8 GoFloat Types XmlTypes M_Core M_Errors M_Text M_Xml M_Decode M_Printer M_Encode
  S_Xml S_Printer S_Text S_Core S_Strconv S_RoundTrip P_Xml P_Printer P_Text P_Core P_Strconv P_State P_RTBase P_RTText P_RTAttr P_RTExt GoStrconv.
Local Opaque parse_rgba format_rgba get_u32 get_f32 fmt_dec format_f parse_u32 parse_float parse_matrix matrix_string fields sjoin attrs_loop rf
  new_object_type object_type_string has_transform any_attr any_attrs.

(** ** What is read *)
Section Image.
  Context (p : nat).
  Definition rt_elem (x : AnyElem) : AnyElem := match x with AnyExt x => AnyExt (rt_ext p x) | _ => x end.
  Definition rt_asset (a : Asset) : Asset := match a with AExt x => AExt (rt_ext p x) | _ => a end.
  Definition rt_point (v : Point3D) : Point3D := P3 (rf p (px v)) (rf p (py v)) (rf p (pz v)).
  Definition rt_comp1 (c : Component) : Component := mkComp (co_oid c) (rt_tr (co_tr c)) (co_any c).
  Definition rt_item (i : Item) : Item := mkItem (it_oid i) (rt_tr (it_tr i)) (it_part i) (it_md i) (it_any i).
  Definition rt_mesh (o : Object) (m : Mesh) : Mesh := mkMesh (map rt_point (me_verts m)) (me_vany m) (map (with_defaults o) (me_tris m)) (me_tany m) (me_any m) (map rt_elem (me_ext m)).
  Definition rt_comps (c : Components) : Components := mkComps (map rt_comp1 (cs_list c)) (cs_any c).
  Definition rt_obj (o : Object) : Object :=
    mkObj (ob_id o) (ob_name o) (ob_part o) (ob_thumb o) (ob_pid o) (ob_pindex o) (ob_type o) (ob_md o)
      (option_map (rt_mesh o) (ob_mesh o)) (option_map rt_comps (ob_comps o)) (ob_any o).
  Definition rt_res (r : Resources) : Resources := mkRes (map rt_asset (rs_assets r)) (map rt_obj (rs_objects r)) (rs_any r).
  Definition rt_build (b : Build) : Build := mkBuild (map rt_item (bu_items b)) (bu_any b).
End Image.

(** ** The resources in the model *)
Section Rset.
  Context (path : string).
  Definition rset (r : Resources) (m : Model) : Model := s_model (res_set path r (d_init m)).
  Lemma res_set_model r s : res_set path r s = with_model (rset r (s_model s)) s.
  Proof. unfold rset, res_set. cbn [d_init s_model]. destruct (_ || _); [reflexivity|]. destruct (find_child _ _); [reflexivity|]. destruct s; reflexivity. Qed.
  Lemma rset_rset r r' m : rset r (rset r' m) = rset r m.
  Proof.
    unfold rset. rewrite <- (res_set_set path r r' (d_init m)). rewrite (res_set_model r (res_set _ _ _)), (res_set_model r (d_init _)). reflexivity.
  Qed.
  Lemma find_rset r m : find_resources m path <> None -> find_resources (rset r m) path = Some r.
  Proof. intros H. apply (res_get_set path r (d_init m) H). Qed.
  Lemma rset_exts r m : mo_exts (rset r m) = mo_exts m.
  Proof. unfold rset, res_set. cbn [d_init s_model]. destruct (_ || _); [reflexivity|]. destruct (find_child _ _); reflexivity. Qed.
End Rset.
Ltac go ::= repeat (progress (unfold is_attr, lattr, lname, seq, ffmt, item_attr, bm_attr, base_attr, vertex_attr, tri_attr, obj_attr, comp_attr; cbn)).

(** ** Metadata *)
Section Meta.
  Context (exts : list Extension).
  Lemma prefix_known q : existsb (fun e => seq (ex_local e) q) exts = true <-> In q (map ex_local exts).
  Proof.
    rewrite existsb_exists, in_map_iff. split; intros (x & H1 & H2); exists x.
    - split; [destruct (seq_spec (ex_local x) q); [assumption|discriminate]|assumption].
    - split; [assumption|]. rewrite H1. apply seq_refl.
  Qed.
  Lemma meta_name_read n : MetaNameFits (map ex_local exts) n ->
    let v := if nonempty (nspace n) then nspace n +++ ":" +++ nlocal n else nlocal n in
    match split_at ":" v with
    | Some (p, r) => if existsb (fun e => seq (ex_local e) p) exts then mkName p r else mkName "" v
    | None => mkName "" v
    end = n.
  Proof.
    destruct n as [sp lo]. unfold MetaNameFits. cbn [nspace nlocal]. unfold nonempty. intros [(HI & HN & HC)|(-> & H)].
    - destruct (seq_spec sp ""); [contradiction|]. cbn [negb]. rewrite (proj2 (split_at_some ":" (sp +++ ":" +++ lo) sp lo)) by (split; [reflexivity|exact HC]).
      rewrite (proj2 (prefix_known sp) HI). reflexivity.
    - cbn [seq String.eqb negb]. change (seq "" "") with true. cbn [negb]. destruct (split_at ":" lo) as [[q r]|] eqn:E; [|reflexivity].
      apply split_at_some in E as [E1 E2]. destruct (existsb _ exts) eqn:X; [|reflexivity]. apply prefix_known in X. exfalso. apply (H q r E1 E2 X).
  Qed.
  Definition meta_attrs (md : Metadata) : list Attr :=
    [lattr "name" (if nonempty (nspace (md_name md)) then nspace (md_name md) +++ ":" +++ nlocal (md_name md) else nlocal (md_name md))]
    ++ opt (md_preserve md) (lattr "preserve" "true") ++ opt (nonempty (md_type md)) (lattr "type" (md_type md)).
  Lemma meta_attrs_read md : MetaFits (map ex_local exts) md ->
    fold_left (meta_attr exts) (meta_attrs md) meta_zero = mkMeta (md_name md) "" (md_type md) (md_preserve md).
  Proof.
    intros (H & _). unfold meta_attrs. pose proof (meta_name_read _ H) as E. cbv zeta in E. cbn [app fold_left].
    set (v := if nonempty (nspace (md_name md)) then nspace (md_name md) +++ ":" +++ nlocal (md_name md) else nlocal (md_name md)) in *.
    unfold meta_attr at 2. cbn [lattr lname aname nspace nlocal avalue]. change (seq "" "") with true. change (seq "name" "name") with true. cbn [negb]. rewrite E.
    unfold nonempty. destruct (md_preserve md); destruct (seq_spec (md_type md) "") as [->|N]; reflexivity.
  Qed.

  Context (reg : Reg) (isroot : bool) (path : string) (e : Env) (HE : en_default e = Some ns_core).
  Lemma qual_core l : qual e (lname l) = mkName ns_core l.
  Proof. unfold qual. cbn [lname nspace]. rewrite HE. reflexivity. Qed.
  Context (l : mloc) (k : DK) (PM : list Metadata -> DSt -> Prop) (HK : has_child k = true).
  Context (pm_exts : forall ms s, PM ms s -> mo_exts (s_model s) = exts).
  Context (pm_meta : forall ms s v, PM ms s -> PM ms (with_meta v s)).
  Context (pm_add : forall ms s x, PM ms s -> PM (ms ++ [x]) (add_md path l x s)).
  Context (parent : forall ms s, PM ms s -> exists i, child reg isroot path k (mkName ns_core "metadata") s = COk i (KMeta l) (with_meta meta_zero s)).
  Lemma metas_read ms : Forall (MetaFits (map ex_local exts)) ms -> Tr reg isroot path e k false (write_metadata ms) (PM []) (PM ms).
  Proof.
    intros F. apply (tr_list _ _ _ _ _ _ _ PM). intros d c r E. pose proof (in_mid _ _ _ _ _ F E) as Fc. unfold write_metadata1. fold (meta_attrs c).
    apply (tr_text _ _ _ _ _ l _ _ _ _ (fun s => PM d s /\ s_meta s = mkMeta (md_name c) "" (md_type c) (md_preserve c))); [exact HK| |].
    - intros s Hs. rewrite qual_core. destruct (parent d s Hs) as (i & Ec). eexists i, _, _. split; [exact Ec|]. cbn [start s_model with_meta s_meta]. split; [reflexivity|].
      rewrite (pm_exts d s Hs), (meta_attrs_read c Fc). cbn. split; [reflexivity|]. split; [apply pm_meta, pm_meta, Hs|reflexivity].
    - intros s [Hs Em] _. rewrite Em. eexists. split; [reflexivity|]. cbn. replace (mkMeta _ _ _ _) with c by (destruct c; reflexivity). apply pm_add, pm_meta, Hs.
  Qed.
End Meta.
Lemma metas_print e prefixes ms : Forall (MetaFits prefixes) ms -> Prints e false false (write_metadata ms).
Proof.
  intros F. apply (prints_all e _ _ _ _ _ F). intros md (_ & H1 & H2 & H3 & H4). apply pr_element; [apply tag_core; reflexivity| |apply pr_char, H3].
  fit; [|apply safe_writable; reflexivity]. destruct (nonempty _); [|exact H2]. apply (xmltext_app _ _ H1). apply (xmltext_app ":" _); [apply safe_xml; reflexivity|exact H2].
Qed.
Section Groups.
  Context (reg : Reg) (e : Env).
  Lemma any_start parent any : AnyFits e (knows reg) false parent any -> group_start reg parent [] (any_attrs any) = Some (any, None).
  Proof. apply any_read. Qed.
  Lemma any_lens {A} (f : A -> Attr -> option (A * error)) (get : A -> AnyAttr) (set : AnyAttr -> A -> A) sk parent x any :
    AnyFits e (knows reg) sk parent any -> get x = [] ->
    (forall x a any, nspace (aname a) <> "" -> any_attr reg parent (get x) a = Some (any, None) -> f x a = Some (set any x, None)) ->
    (forall any x, get (set any x) = any) -> (forall any any' x, set any (set any' x) = set any x) -> (forall x, set (get x) x = x) ->
    AL f x (any_attrs any) (set any x).
  Proof.
    intros F G H1 H2 H3 H4. apply (al_lens reg f get set (fun a => nspace (aname a) <> "") parent H1 H2 H3 H4); [apply (any_space reg e sk parent any F)|].
    rewrite G. apply (any_read reg e sk), F.
  Qed.
  Ltac lens get_ set_ F := match goal with |- AL ?f ?x _ _ => apply (any_lens f get_ set_ _ _ x _ F) end; [reflexivity| |reflexivity|reflexivity|intros []; reflexivity];
    let Hn := fresh in let Ha := fresh in intros ? ? ? Hn Ha; cbv beta; match goal with |- ?f _ _ = _ => match f with ?g _ => unfold g end end;
    match type of Hn with ?w <> _ => destruct (seq_spec w "") end; [contradiction|cbv beta in Ha; rewrite Ha; reflexivity].
  Lemma item_attrs_read prefixes i : ItemFits e (knows reg) prefixes i ->
    AL (item_attr reg) item_zero (item_attrs i) (it_set_md mg_zero (rt_item i)).
  Proof.
    intros (H1 & H2 & H3 & H4 & H5). unfold item_attrs, rt_item, it_set_md. cbn [it_oid it_tr it_part it_md it_any].
    eapply al_app; [at_; apply al_nil|]. eapply al_app.
    { apply (al_opt _ _ (mkItem (it_oid i) (rt_tr (it_tr i)) "" mg_zero [])); intros HT.
      - go. rewrite (transform_read _ H2 HT). reflexivity.
      - unfold rt_tr. rewrite HT. reflexivity. }
    eapply al_app.
    { apply (al_opt _ _ (mkItem (it_oid i) (rt_tr (it_tr i)) (it_part i) mg_zero [])); unfold nonempty; intros HT; [at1|]. destruct (seq_spec (it_part i) "") as [->|]; [reflexivity|discriminate]. }
    lens it_any (fun any i => mkItem (it_oid i) (it_tr i) (it_part i) (it_md i) any) H5.
  Qed.
  Lemma comp_attrs_read c : CompFits e (knows reg) c ->
    AL (comp_attr reg) (mkComp 0 matrix_zero [])
      ([lattr "objectid" (fmt_dec (co_oid c))] ++ opt (has_transform (co_tr c)) (lattr "transform" (matrix_string (co_tr c))) ++ any_attrs (co_any c)) (rt_comp1 c).
  Proof.
    intros (H1 & H2 & H3). eapply al_app; [at_; apply al_nil|]. eapply al_app.
    { apply (al_opt _ _ (mkComp (co_oid c) (rt_tr (co_tr c)) [])); intros HT.
      - go. rewrite (transform_read _ H2 HT). reflexivity.
      - unfold rt_tr. rewrite HT. reflexivity. }
    lens co_any (fun any c => mkComp (co_oid c) (co_tr c) any) H3.
  Qed.
  Lemma base_attrs_read b : BaseFits e (knows reg) b ->
    AL (base_attr reg) (mkBase "" rgba_zero []) ([lattr "name" (ba_name b); lattr "displaycolor" (format_rgba (ba_color b))] ++ any_attrs (ba_any b)) b.
  Proof.
    intros (H1 & H2 & H3). eapply al_app.
    { eapply al_cons; [at1|]. eapply al_cons; [go; rewrite (rgba_read _ H2); reflexivity|]. apply al_nil. }
    destruct b as [n c any]. lens ba_any (fun any b => mkBase (ba_name b) (ba_color b) any) H3.
  Qed.
  Lemma bm_attrs_read id any : U32 id -> AnyFits e (knows reg) false "basematerials" any ->
    AL (bm_attr reg) bm_zero (lattr "id" (fmt_dec id) :: any_attrs any) (mkBM id [] any).
  Proof. intros H1 H2. eapply al_cons; [at1|]. lens bs_any (fun any b => mkBM (bs_id b) (bs_mats b) any) H2. Qed.
  Definition head_obj (o : Object) : Object :=
    mkObj (ob_id o) (ob_name o) (ob_part o) (ob_thumb o) (ob_pid o) (ob_pindex o) (ob_type o) mg_zero None None (ob_any o).
  Lemma obj_attrs_read p prefixes o : ObjFits e (knows reg) p prefixes o -> AL (obj_attr reg) obj_zero (object_attrs o) (head_obj o).
  Proof.
    intros (H1 & H2 & H3 & H4 & H5 & H6 & H7 & _ & H8 & H9).
    assert (H10 : (match ob_mesh o with Some _ => true | None => false end) = false -> ob_pid o = 0%N /\ ob_pindex o = 0%N).
    { destruct (ob_mesh o); [discriminate|]. intros _. destruct (ob_comps o); [destruct H9 as (A & B & _)|destruct H9 as (A & B)]; auto. }
    clear H9. unfold object_attrs, head_obj. set (mesh := match ob_mesh o with Some _ => true | None => false end) in *. clearbody mesh.
    set (mk := fun name part thumb pid pindex ty any => mkObj (ob_id o) name part thumb pid pindex ty mg_zero None None any).
    eapply al_app; [at_; apply al_nil|]. eapply al_app.
    { apply (al_opt _ _ (mk "" "" "" 0%N 0%N (ob_type o) [])); intros HT.
      - go. rewrite (type_read _ H7). reflexivity.
      - destruct (Z.eqb_spec (ob_type o) 0) as [->|]; [reflexivity|discriminate]. }
    eapply al_app.
    { apply (al_opt _ _ (mk "" "" (ob_thumb o) 0%N 0%N (ob_type o) [])); unfold nonempty; intros HT; [at1|]. destruct (seq_spec (ob_thumb o) "") as [->|]; [reflexivity|discriminate]. }
    eapply al_app.
    { apply (al_opt _ _ (mk "" (ob_part o) (ob_thumb o) 0%N 0%N (ob_type o) [])); unfold nonempty; intros HT; [at1|]. destruct (seq_spec (ob_part o) "") as [->|]; [reflexivity|discriminate]. }
    eapply al_app.
    { apply (al_opt _ _ (mk (ob_name o) (ob_part o) (ob_thumb o) 0%N 0%N (ob_type o) [])); unfold nonempty; intros HT; [at1|]. destruct (seq_spec (ob_name o) "") as [->|]; [reflexivity|discriminate]. }
    eapply al_app.
    { apply (al_opt _ _ (mk (ob_name o) (ob_part o) (ob_thumb o) (ob_pid o) 0%N (ob_type o) [])); intros HT; [at1|].
      assert (ob_pid o = 0%N) as ->; [|reflexivity]. destruct mesh; [|apply H10; reflexivity]. destruct (N.eqb_spec (ob_pid o) 0); [assumption|discriminate]. }
    eapply al_app.
    { apply (al_opt _ _ (mk (ob_name o) (ob_part o) (ob_thumb o) (ob_pid o) (ob_pindex o) (ob_type o) [])); intros HT; [at1|].
      assert (ob_pindex o = 0%N) as ->; [|reflexivity]. destruct mesh; [|apply H10; reflexivity]. destruct (N.eqb_spec (ob_pindex o) 0); [assumption|discriminate]. }
    unfold mk. lens ob_any (fun any o => mkObj (ob_id o) (ob_name o) (ob_part o) (ob_thumb o) (ob_pid o) (ob_pindex o) (ob_type o) (ob_md o) (ob_mesh o) (ob_comps o) any) H8.
  Qed.

  (** *** triangles *)
  Lemma appends_view xs : forall arr s, match s with InPlace n => (n <= List.length arr)%nat | _ => True end ->
    let r := fold_left (fun st xs => slice_append (fst st) (snd st) xs) xs (arr, s) in
    slice_view (fst r) (snd r) = slice_view arr s ++ concat xs.
  Proof.
    induction xs as [|x xs IH]; intros arr s H; cbn [fold_left concat]; [cbn; rewrite app_nil_r; reflexivity|]. cbn [fst snd]. rewrite app_assoc.
    destruct s as [n|l]; cbn [slice_append].
    - destruct (Nat.leb_spec (n + List.length x) (List.length arr)) as [L|L].
      + rewrite IH.
        * f_equal. cbn [slice_view]. rewrite app_assoc, firstn_app.
          assert (Z : List.length (firstn n arr ++ x) = n + List.length x) by (rewrite app_length, firstn_length_le by exact H; reflexivity).
          rewrite Z, Nat.sub_diag, firstn_O, app_nil_r. rewrite <- Z at 1. apply firstn_all.
        * rewrite !app_length, firstn_length_le, skipn_length by exact H. lia.
      + rewrite IH by exact I. reflexivity.
    - rewrite IH by exact I. reflexivity.
  Qed.
  Lemma appends_full xs : forall arr s, match s with InPlace n => n = List.length arr | _ => True end ->
    fst (fold_left (fun st xs => slice_append (fst st) (snd st) xs) xs (arr, s)) = arr.
  Proof.
    induction xs as [|x xs IH]; intros arr s H; cbn [fold_left]; [reflexivity|]. cbn [fst snd]. destruct s as [n|l]; cbn [slice_append].
    - subst n. destruct (Nat.leb_spec (List.length arr + List.length x) (List.length arr)) as [L|L].
      + destruct x; [|cbn in L; lia]. cbn [List.length app]. rewrite Nat.add_0_r, firstn_all, skipn_all, app_nil_r. apply IH. reflexivity.
      + apply IH. exact I.
    - apply IH. exact I.
  Qed.
  Definition tri_names (arr : list Attr) : Prop := map aname arr = map aname tri_array.
  Fixpoint named (ns : list string) (vs : list string) : list Attr :=
    match ns, vs with n :: ns, v :: vs => lattr n v :: named ns vs | _, _ => [] end.
  Definition tri_core pid pindex (t : Triangle) : list Attr := named ["v1"; "v2"; "v3"; "pid"; "p1"; "p2"; "p3"] (tri_values pid pindex t).
  Lemma set_names vs : forall i arr, map aname (set_values i vs arr) = map aname arr.
  Proof.
    induction vs as [|v vs IH]; intros i arr; [reflexivity|]. cbn [set_values]. rewrite IH. clear. revert i. induction arr as [|a arr IH]; intros i; [destruct i; reflexivity|].
    destruct i; cbn; [reflexivity|]. f_equal. apply IH.
  Qed.
  Lemma tri_values_shape pid pindex t : exists a b c l, tri_values pid pindex t = a :: b :: c :: l /\ (l = [] \/ (exists d f, l = [d; f]) \/ exists d f g h, l = [d; f; g; h]).
  Proof. unfold tri_values. eexists _, _, _, _. cbn [map app]. split; [reflexivity|]. destruct (_ =? _)%N; [left; reflexivity|]. destruct (_ || _); [right; right; cbn; eauto 8|]. destruct (_ || _); [right; left; cbn; eauto|left; reflexivity]. Qed.
  Lemma tri_step_view pid pindex arr t : tri_names arr -> fst (tri_step pid pindex arr t) = tri_core pid pindex t ++ any_attrs (t_any t).
  Proof.
    intros N. unfold tri_step, tri_core. destruct (tri_values_shape pid pindex t) as (v1 & v2 & v3 & l & -> & Hl).
    unfold tri_names, tri_array in N. cbn in N. do 7 (destruct arr as [|[? ?] arr]; [discriminate N|]). destruct arr; [|discriminate N]. cbn in N. injection N as -> -> -> -> -> -> ->.
    set (arr := set_values _ _ _). set (n := List.length _).
    destruct (fold_left _ (any_appends (t_any t)) (arr, InPlace n)) as [arr' s'] eqn:E. cbn [fst].
    pose proof (appends_view (any_appends (t_any t)) arr (InPlace n)) as V. rewrite E in V. cbv zeta in V. cbn [fst snd] in V. rewrite V.
    - change (concat (any_appends (t_any t))) with (any_attrs (t_any t)). f_equal. subst n arr. destruct Hl as [->|[(? & ? & ->)|(? & ? & ? & ? & ->)]]; reflexivity.
    - subst n arr. destruct Hl as [->|[(? & ? & ->)|(? & ? & ? & ? & ->)]]; cbn; lia.
  Qed.
  Lemma tri_step_names pid pindex arr t : tri_names arr -> t_any t = [] \/ AllWritten t -> tri_names (snd (tri_step pid pindex arr t)).
  Proof.
    intros N H. unfold tri_step. set (vs := tri_values pid pindex t).
    assert (X : fst (fold_left (fun st xs => slice_append (fst st) (snd st) xs) (any_appends (t_any t)) (set_values 0 vs arr, InPlace (List.length vs))) = set_values 0 vs arr).
    { destruct H as [->|[H1 H2]]; [reflexivity|]. apply appends_full. transitivity 7%nat.
      - subst vs. unfold tri_values. destruct (N.eqb_spec (t_pid t) 0); [contradiction|]. destruct (N.eqb_spec (t_p1 t) (t_p2 t)); destruct (N.eqb_spec (t_p1 t) (t_p3 t)); cbn [negb orb]; try reflexivity.
        exfalso. destruct H2; contradiction.
      - apply (f_equal (@List.length _)) in N. rewrite !map_length in N. rewrite <- (map_length aname), set_names, map_length. symmetry. exact N. }
    destruct (fold_left _ _ _) as [arr' s'] eqn:E. cbn [fst] in X. cbn [snd]. subst arr'. unfold tri_names. rewrite set_names. exact N.
  Qed.
  Lemma tri_attrs_read o t : NumsFit t -> AnyFits e (knows reg) true "triangle" (t_any t) ->
    exists tv, AL (tri_attr reg) (mkTriV 0 0 0 None None None None []) (tri_core (ob_pid o) (ob_pindex o) t ++ any_attrs (t_any t)) tv /\
      tri_of (ob_pid o) (ob_pindex o) tv = with_defaults o t.
  Proof.
    intros (H1 & H2 & H3 & H4 & H5 & H6 & H7) HA. unfold tri_core, tri_values, with_defaults.
    assert (L : forall pid p1 p2 p3, AL (tri_attr reg) (mkTriV (t_v1 t) (t_v2 t) (t_v3 t) pid p1 p2 p3 []) (any_attrs (t_any t)) (mkTriV (t_v1 t) (t_v2 t) (t_v3 t) pid p1 p2 p3 (t_any t))).
    { intros. lens tv_any (fun any t => mkTriV (tv_v1 t) (tv_v2 t) (tv_v3 t) (tv_pid t) (tv_p1 t) (tv_p2 t) (tv_p3 t) any) HA. }
    destruct t as [v1 v2 v3 pid p1 p2 p3 any]. cbn [t_v1 t_v2 t_v3 t_pid t_p1 t_p2 t_p3 t_any] in *.
    destruct (N.eqb_spec pid 0) as [->|Np].
    - eexists. split; [cbn [map app named]; at_; at_; at_; apply L|reflexivity].
    - destruct (N.eqb_spec p1 p2) as [->|N1]; [destruct (N.eqb_spec p2 p3) as [->|N2]|]; cbn [negb orb].
      + destruct (N.eqb_spec pid (ob_pid o)) as [->|N3]; [destruct (N.eqb_spec p3 (ob_pindex o)) as [->|N4]|]; cbn [negb orb];
          (eexists; split; [cbn [map app named]; repeat at_; apply L|reflexivity]).
      + eexists; split; [cbn [map app named]; repeat at_; apply L|reflexivity].
      + eexists; split; [cbn [map app named]; repeat at_; apply L|reflexivity].
  Qed.
End Groups.

(** ** Elements the program does not know *)
Section Unk.
  Context (reg : Reg) (isroot : bool) (path : string) (e : Env) (k k' : DK) (Pre : DSt -> Prop) (UN : list Token -> DSt -> Prop).
  Lemma inside_tokens n l : Inside e n l ->
    Forall (fun t => match t with TStart m _ => nspace m <> "" | TEnd m => nspace m <> "" /\ m <> n | TChar _ => False end) l.
  Proof. induction 1 as [|m a l r H1 H2 H3 H4 Hl IHl Hr IHr]; [constructor|]. constructor; [exact H2|]. apply Forall_app. split; [exact IHl|]. constructor; [split; [exact H2|exact H1]|exact IHr]. Qed.
  Lemma unk_fold inner : (forall ts t s, UN ts s -> UN (ts ++ [t]) (append_token path k' t s)) ->
    forall ts s, UN ts s -> UN (ts ++ inner) (fold_left (fun s t => append_token path k' t s) inner s).
  Proof. intros H. induction inner as [|t inner IH]; intros ts s Hs; [rewrite app_nil_r; exact Hs|]. cbn [fold_left]. replace (ts ++ t :: inner) with ((ts ++ [t]) ++ inner) by (rewrite <- app_assoc; reflexivity). apply IH, H, Hs. Qed.
  Lemma unknown_read (Q : DSt -> Prop) n a inner : has_child k = true -> keeps k' = true -> nspace n <> "" -> Inside e n inner ->
    (forall s, Pre s -> exists i s1 s2, child reg isroot path k n s = COk i k' s1 /\ start reg isroot path k' n a s1 = Some (s2, None) /\ UN [TStart n a] s2) ->
    (forall ts t s, UN ts s -> UN (ts ++ [t]) (append_token path k' t s)) ->
    (forall s, UN (TStart n a :: inner) s -> exists s', end_ path k' n s = Some s' /\ Q s') ->
    Tr reg isroot path e k false (write_tokens (TStart n a :: inner ++ [TEnd n])) Pre Q.
  Proof.
    intros HC HK HN HI HS HA HE. apply (tr_unknown _ _ _ _ _ k' _ _ _ _ (UN [TStart n a])); [exact HC|exact HK|exact HN|apply inside_tokens, HI|exact HS|].
    intros s Hs. apply HE. apply (unk_fold inner HA [TStart n a] s Hs).
  Qed.
End Unk.

Section Core.
  Context (reg : Reg) (isroot : bool) (path : string) (e : Env) (p : nat) (M0 : Model).
  Context (HE : en_default e = Some ns_core) (HF : find_resources M0 path <> None).
  Notation Tr := (Tr reg isroot path e).
  Notation known := (knows reg).
  Notation prefixes := (map ex_local (mo_exts M0)).
  Ltac qc := rewrite (qual_core e HE).
  Definition VR (r : Resources) (s : DSt) : Prop := s_model s = rset path r M0.
  Definition VO (r : Resources) (o : Object) (s : DSt) : Prop := VR r s /\ s_obj s = o /\ s_obj_done s = false.
  Definition VB (r : Resources) (b : BaseMaterials) (s : DSt) : Prop := VR r s /\ s_bm s = b /\ s_bm_done s = false.
  Lemma vr_get r s : VR r s -> res_get path s = Some r.
  Proof. intros H. unfold res_get. rewrite H. apply find_rset, HF. Qed.
  Lemma vr_set r r' s : VR r s -> VR r' (res_set path r' s).
  Proof. intros H. unfold VR in *. rewrite res_set_model. cbn [s_model with_model]. rewrite H. apply rset_rset. Qed.
  Lemma vr_upd r s f : VR r s -> exists s', res_upd path f s = Some s' /\ VR (f r) s'.
  Proof. intros H. unfold res_upd. rewrite (vr_get r s H). eexists. split; [reflexivity|]. apply (vr_set r), H. Qed.
  Lemma vo_get r o s : VO r o s -> get_obj path s = o.
  Proof. intros (_ & H & D). unfold get_obj. rewrite D. exact H. Qed.
  Lemma vo_upd r o s f : VO r o s -> VO r (f o) (upd_obj path f s).
  Proof. intros (H1 & H & D). unfold upd_obj. rewrite D. split; [exact H1|]. cbn. rewrite H. split; reflexivity. Qed.
  Lemma vo_mesh r o s me : VO r (ob_set_mesh (Some me) o) s -> get_mesh path s = Some me.
  Proof. intros H. unfold get_mesh. rewrite (vo_get _ _ _ H). reflexivity. Qed.
  Lemma vo_upd_mesh r o s me f : VO r (ob_set_mesh (Some me) o) s -> VO r (ob_set_mesh (Some (f me)) o) (upd_mesh path f s).
  Proof. intros H. apply (vo_upd _ _ _ (fun o => ob_set_mesh (match ob_mesh o with Some me => Some (f me) | None => None end) o)) in H. exact H. Qed.

  (** *** components *)
  Lemma components_read r o cs : Forall (CompFits e known) (cs_list cs) -> AnyFits e known false "components" (cs_any cs) ->
    Tr KObj false (write_components cs) (VO r o) (VO r (ob_set_comps (Some (rt_comps cs)) o)).
  Proof.
    intros F FA. eapply (tr_element _ _ _ _ _ KComps); [reflexivity| |apply tr_auto, (tr_map _ _ _ _ _ _ _ (fun d => VO r (ob_set_comps (Some (mkComps (map rt_comp1 d) (cs_any cs))) o)))|].
    - intros s Hs. qc. eexists _, _, _. split; [reflexivity|]. split; [cbn [start]; rewrite (any_start reg e _ _ FA); reflexivity|].
      exact (vo_upd _ _ _ _ Hs).
    - intros d c l E. pose proof (comp_attrs_read reg e c (in_mid _ _ _ _ _ F E)) as H. apply (tr_empty _ _ _ _ _ KComp); [reflexivity|]. intros s Hs. qc.
      eexists _, _, _, _. split; [reflexivity|]. split; [cbn [start]; rewrite H; reflexivity|]. split; [reflexivity|].
      rewrite map_app. exact (vo_upd _ _ _ (fun o => ob_set_comps (match ob_comps o with Some cs => Some (mkComps (cs_list cs ++ [rt_comp1 c]) (cs_any cs)) | None => None end) o) Hs).
    - intros s Hs. eexists. split; [reflexivity|]. exact Hs.
  Qed.
  Lemma components_print cs : Forall (CompFits e known) (cs_list cs) -> AnyFits e known false "components" (cs_any cs) -> Prints e false false (write_components cs).
  Proof.
    intros F FA. apply pr_element; [apply tag_core; reflexivity|apply (any_fit reg e false "components"), FA|]. apply pr_auto. apply (prints_each e _ _ _ _ _ F).
    intros c (H1 & H2 & H3). apply pr_empty; [apply tag_core; reflexivity|]. fit. apply (any_fit reg e false "component"), H3.
  Qed.

  (** *** meshes *)
  Lemma vertices_read r o me : Forall PointFits (me_verts me) -> AnyFits e known false "vertices" (me_vany me) ->
    Tr KMesh false (write_vertices p me) (VO r (ob_set_mesh (Some (mkMesh [] [] [] [] (me_any me) [])) o))
      (VO r (ob_set_mesh (Some (mkMesh (map (rt_point p) (me_verts me)) (me_vany me) [] [] (me_any me) [])) o)).
  Proof.
    intros F FA. eapply (tr_element _ _ _ _ _ KVerts); [reflexivity| |apply tr_auto_skip,
      (tr_map _ _ _ _ _ _ _ (fun d => VO r (ob_set_mesh (Some (mkMesh (map (rt_point p) d) (me_vany me) [] [] (me_any me) [])) o)))|].
    - intros s Hs. qc. eexists _, _, _. split; [reflexivity|]. split.
      + cbn [start]. rewrite (vo_mesh _ _ _ _ Hs). cbn [me_vany]. rewrite (any_start reg e _ _ FA). reflexivity.
      + exact (vo_upd_mesh _ _ _ _ _ Hs).
    - intros d c l E. pose proof (in_mid _ _ _ _ _ F E) as (F1 & F2 & F3).
      assert (H : AL vertex_attr point_zero [lattr "x" (ffmt p (px c)); lattr "y" (ffmt p (py c)); lattr "z" (ffmt p (pz c))] (rt_point p c)) by (at_; at_; at_; apply al_nil).
      apply (tr_empty _ _ _ _ _ KVert); [reflexivity|]. intros s Hs. qc.
      eexists _, _, _, _. split; [reflexivity|]. split; [cbn [start]; rewrite H; reflexivity|]. split; [reflexivity|]. rewrite map_app.
      exact (vo_upd_mesh _ _ _ _ (fun m => mkMesh (me_verts m ++ [rt_point p c]) (me_vany m) (me_tris m) (me_tany m) (me_any m) (me_ext m)) Hs).
    - intros s Hs. eexists. split; [reflexivity|]. exact Hs.
  Qed.
  Lemma tris_read r o me : forall l arr d, tri_names arr -> TrisFit e known l ->
    Tr KTris true (write_tris (ob_pid o) (ob_pindex o) arr l)
      (VO r (ob_set_mesh (Some (mkMesh (me_verts me) (me_vany me) d (me_tany me) (me_any me) (me_ext me))) o))
      (VO r (ob_set_mesh (Some (mkMesh (me_verts me) (me_vany me) (d ++ map (with_defaults o) l) (me_tany me) (me_any me) (me_ext me))) o)).
  Proof.
    induction l as [|t l IH]; intros arr d N F; [rewrite app_nil_r; apply tr_nil; auto|]. inversion F as [|t' l' F1 F3 F4 F5]; subst.
    destruct (tri_attrs_read reg e o t F1 F3) as (tv & H & Ht).
    cbn [write_tris]. pose proof (tri_step_view (ob_pid o) (ob_pindex o) arr t N) as V. destruct (tri_step _ _ arr t) as [attrs arr'] eqn:ES. cbn [fst] in V. subst attrs.
    apply (tr_app _ _ _ _ _ _ [_] _ _ (VO r (ob_set_mesh (Some (mkMesh (me_verts me) (me_vany me) (d ++ [with_defaults o t]) (me_tany me) (me_any me) (me_ext me))) o))).
    - apply (tr_empty _ _ _ _ _ KTri); [reflexivity|]. intros s Hs. qc.
      eexists _, _, _, _. split; [reflexivity|]. split; [cbn [start]; rewrite H; reflexivity|]. split; [reflexivity|].
      rewrite (vo_get _ _ _ Hs). cbn [ob_pid ob_pindex ob_set_mesh]. rewrite Ht.
      exact (vo_upd_mesh _ _ _ _ (fun m => mkMesh (me_verts m) (me_vany m) (me_tris m ++ [with_defaults o t]) (me_tany m) (me_any m) (me_ext m)) Hs).
    - cbn [map]. replace (d ++ with_defaults o t :: map (with_defaults o) l) with ((d ++ [with_defaults o t]) ++ map (with_defaults o) l) by (rewrite <- app_assoc; reflexivity). destruct F4 as [A|[A| ->]]; [apply IH; [|exact F5]..|].
      + pose proof (tri_step_names (ob_pid o) (ob_pindex o) arr t N (or_introl A)) as X. rewrite ES in X. exact X.
      + pose proof (tri_step_names (ob_pid o) (ob_pindex o) arr t N (or_intror A)) as X. rewrite ES in X. exact X.
      + rewrite app_nil_r. apply tr_nil. auto.
  Qed.
  Lemma tris_print o : forall l arr, tri_names arr -> TrisFit e known l -> Prints e true true (write_tris (ob_pid o) (ob_pindex o) arr l).
  Proof.
    induction l as [|t l IH]; intros arr N F; [apply pr_nil|]. inversion F as [|t' l' F1 F3 F4 F5]; subst.
    cbn [write_tris]. pose proof (tri_step_view (ob_pid o) (ob_pindex o) arr t N) as V. destruct (tri_step _ _ arr t) as [attrs arr'] eqn:ES. cbn [fst] in V. subst attrs.
    apply (pr_app e true true [_]).
    - apply pr_empty; [apply tag_core; reflexivity|]. apply fits_app; [|apply (any_fit reg e true "triangle"), F3]. unfold tri_core, tri_values.
      destruct (_ =? _)%N; [|destruct (_ || _); [|destruct (_ || _)]]; cbn [map app named]; fit.
    - destruct F4 as [A|[A| ->]]; [apply IH; [|exact F5]..|apply pr_nil].
      + pose proof (tri_step_names (ob_pid o) (ob_pindex o) arr t N (or_introl A)) as X. rewrite ES in X. exact X.
      + pose proof (tri_step_names (ob_pid o) (ob_pindex o) arr t N (or_intror A)) as X. rewrite ES in X. exact X.
  Qed.
  Lemma triangles_read r o me : TrisFit e known (me_tris me) -> AnyFits e known false "triangles" (me_tany me) ->
    Tr KMesh false (write_triangles o me) (VO r (ob_set_mesh (Some (mkMesh (map (rt_point p) (me_verts me)) (me_vany me) [] [] (me_any me) [])) o))
      (VO r (ob_set_mesh (Some (mkMesh (map (rt_point p) (me_verts me)) (me_vany me) (map (with_defaults o) (me_tris me)) (me_tany me) (me_any me) [])) o)).
  Proof.
    intros F FA. eapply (tr_element _ _ _ _ _ KTris); [reflexivity| |apply tr_auto_skip,
      (tris_read r o (mkMesh (map (rt_point p) (me_verts me)) (me_vany me) (me_tris me) (me_tany me) (me_any me) []) (me_tris me) tri_array [] eq_refl F)|].
    - intros s Hs. qc. eexists _, _, _. split; [reflexivity|]. split.
      + cbn [start]. rewrite (vo_mesh _ _ _ _ Hs). cbn [me_tany]. rewrite (any_start reg e _ _ FA). reflexivity.
      + exact (vo_upd_mesh _ _ _ _ _ Hs).
    - intros s Hs. eexists. split; [reflexivity|]. exact Hs.
  Qed.
  (** The element of an extension in the mesh *)
  Lemma mesh_any_read r o me l : ElemsFit e known p l -> me_ext me = [] ->
    Tr KMesh false (write_any p l) (VO r (ob_set_mesh (Some me) o))
      (VO r (ob_set_mesh (Some (mkMesh (me_verts me) (me_vany me) (me_tris me) (me_tany me) (me_any me) (map (rt_elem p) l))) o)).
  Proof.
    intros F EM. destruct me as [vs va ts ta any ext]. cbn [me_ext me_verts me_vany me_tris me_tany me_any] in *. subst ext.
    set (V x := VO r (ob_set_mesh (Some (mkMesh vs va ts ta any [x])) o)).
    destruct l as [|x [|y l]]; cbn [write_any map]; [apply tr_nil; auto| |destruct x; destruct F].
    destruct x as [toks|x]; cbn [ElemsFit write_any1 rt_elem] in *.
    - destruct F as (n & a & inner & -> & H1 & H2 & H3 & H4 & H5 & H6).
      assert (UA : forall us t s, V (AnyTokens us) s -> V (AnyTokens (us ++ [t])) (append_token path (KUnk LMesh) t s)).
      { intros us t s Hs. apply (vo_upd_mesh _ _ _ _ (fun m => mkMesh (me_verts m) (me_vany m) (me_tris m) (me_tany m) (me_any m)
          (upd_last (fun e => match e with AnyTokens ts => AnyTokens (ts ++ [t]) | _ => e end) (me_ext m))) Hs). }
      apply (unknown_read reg isroot path e _ (KUnk LMesh) _ (fun us => V (AnyTokens us))); [reflexivity|reflexivity|exact H1|exact H6| |exact UA|].
      + intros s Hs. assert (C : child reg isroot path KMesh n s = COk (-1) (KUnk LMesh) (upd_mesh path (me_add_any (AnyTokens [])) s)).
        { cbn [child]. unfold mesh_child. destruct (seq_spec (nspace n) ns_core); [contradiction|]. unfold new_element_decoder. rewrite (load_unknown reg _ H3). reflexivity. }
        eexists _, _, _. split; [exact C|]. split; [reflexivity|]. apply (UA [] (TStart n a)). exact (vo_upd_mesh _ _ _ _ (me_add_any (AnyTokens [])) Hs).
      + intros s Hs. eexists. split; [reflexivity|]. apply (UA (TStart n a :: inner)), Hs.
    - apply (ext_read reg isroot path e p LMesh (fun x => V (AnyExt x))) with (ok := fun _ => true); try (intros; reflexivity); try exact F.
      + intros y s Hs. unfold get_ext. rewrite (vo_mesh _ _ _ _ Hs). reflexivity.
      + intros y s f Hs. exact (vo_upd_mesh _ _ _ _ (fun m => mkMesh (me_verts m) (me_vany m) (me_tris m) (me_tany m) (me_any m) (upd_last (on_any f) (me_ext m))) Hs).
      + intros y s v Hs. exact Hs.
      + intros y s v Hs. exact Hs.
      + intros s n sp xk x0 Hs HL HD _. eexists _, _. split; [|exact (vo_upd_mesh _ _ _ _ (me_add_any (AnyExt x0)) Hs)].
        cbn [child]. unfold mesh_child. destruct (seq_spec (nspace n) ns_core) as [EC|_]; [rewrite EC in HL; exfalso|].
        * unfold load in HL. vm_compute in HL. discriminate HL.
        * unfold new_element_decoder. rewrite HL, HD. reflexivity.
      + repeat split.
  Qed.
  Lemma any_print l : ElemsFit e known p l -> Prints e false false (write_any p l).
  Proof.
    intros F. destruct l as [|x [|y l]]; cbn [write_any]; [apply pr_nil| |destruct x; destruct F]. destruct x as [toks|x]; cbn [ElemsFit write_any1] in *.
    - destruct F as (n & a & inner & -> & H1 & H2 & H3 & H4 & H5 & H6). apply pr_tokens; assumption.
    - apply (ext_prints e known p x F).
  Qed.
  Lemma mesh_read r o me : MeshFits e known p me -> Tr KObj false (write_mesh p o me) (VO r o) (VO r (ob_set_mesh (Some (rt_mesh p o me)) o)).
  Proof.
    intros (F1 & F2 & F3 & F4 & F5 & F6).
    eapply (tr_element _ _ _ _ _ KMesh); [reflexivity| |eapply tr_app; [apply (vertices_read r o me F1 F2)|eapply tr_app; [apply (triangles_read r o me F3 F4)|apply (mesh_any_read r o (mkMesh (map (rt_point p) (me_verts me)) (me_vany me) (map (with_defaults o) (me_tris me)) (me_tany me) (me_any me) []) _ F6 eq_refl)]]|].
    - intros s Hs. qc. eexists _, _, _. split; [reflexivity|]. split; [cbn [start]; rewrite (any_start reg e _ _ F5); reflexivity|]. exact (vo_upd _ _ _ (ob_set_mesh _) Hs).
    - intros s Hs. eexists. split; [reflexivity|]. exact Hs.
  Qed.
  Lemma mesh_print o me : MeshFits e known p me -> Prints e false false (write_mesh p o me).
  Proof.
    intros (F1 & F2 & F3 & F4 & F5 & F6). apply pr_element; [apply tag_core; reflexivity|apply (any_fit reg e false "mesh"), F5|].
    apply pr_app; [|apply pr_app; [|apply any_print, F6]]; (apply pr_element; [apply tag_core; reflexivity|eapply any_fit; eassumption|]); apply pr_auto_skip.
    - apply (prints_each e _ _ _ _ _ F1). intros v Hv. apply pr_empty; [apply tag_core; reflexivity|fit].
    - apply tris_print; [reflexivity|exact F3].
  Qed.

  Lemma write_mesh_same o o' me : ob_pid o' = ob_pid o -> ob_pindex o' = ob_pindex o -> write_mesh p o' me = write_mesh p o me.
  Proof. intros E1 E2. unfold write_mesh, write_triangles. rewrite E1, E2. reflexivity. Qed.

  (** *** objects *)
  Definition GMeta := GroupMetaFits e known prefixes.
  Lemma group_print g : GMeta g -> Prints e false false (write_metadata_group g).
  Proof.
    intros (F1 & F2 & _). apply pr_element; [apply tag_core; reflexivity|apply (any_fit reg e false "metadatagroup"), F2|]. apply (metas_print e _ _ F1).
  Qed.
  Lemma obj_group_read r o g : GMeta g -> ob_md o = mg_zero -> Tr KObj false (write_metadata_group g) (VO r o) (VO r (ob_set_md g o)).
  Proof.
    intros (F1 & F2 & _) E0. set (PM ms := VO r (ob_set_md (mkMG ms (mg_any g)) o)).
    apply (tr_element _ _ _ _ _ (KMetaGroup MObj) _ _ _ _ (PM []) (PM (mg_list g))); [reflexivity| | |].
    - intros s Hs. qc. eexists _, _, _. split; [reflexivity|]. split.
      + cbn [start get_mg]. rewrite (vo_get _ _ _ Hs), E0. cbn [mg_zero mg_any mg_list]. rewrite (any_start reg e _ _ F2). reflexivity.
      + exact (vo_upd _ _ _ (ob_set_md _) Hs).
    - apply (metas_read (mo_exts M0) reg isroot path e HE MObj (KMetaGroup MObj) PM); try exact F1; try reflexivity.
      + intros ms s (H & _). rewrite H. apply rset_exts.
      + intros ms s v Hs. exact Hs.
      + intros ms s x Hs. exact (vo_upd _ _ _ (fun o => ob_set_md (mkMG (mg_list (ob_md o) ++ [x]) (mg_any (ob_md o))) o) Hs).
      + intros ms s Hs. eexists. reflexivity.
    - intros s Hs. eexists. split; [reflexivity|]. unfold PM in Hs. destruct g; exact Hs.
  Qed.
  Lemma md_opt g : GMeta g -> mg_list g = [] -> g = mg_zero.
  Proof. intros (_ & _ & H) E. specialize (H E). destruct g as [l any]. cbn in *. subst. reflexivity. Qed.
  Lemma object_read r o : ObjFits e known p prefixes o -> Tr KRes false (write_object p o) (VR r) (VR (rs_add_object (rt_obj p o) r)).
  Proof.
    intros F. pose proof (obj_attrs_read reg e p prefixes o F) as HA. destruct F as (F1 & F2 & F3 & F4 & F5 & F6 & F7 & F8 & F9 & F10).
    unfold write_object.
    assert (B : Tr KRes false (element (lname "object") (object_attrs o)
       ((match mg_list (ob_md o) with [] => [] | _ => write_metadata_group (ob_md o) end)
        ++ match ob_mesh o, ob_comps o with Some m, _ => write_mesh p o m | None, Some cs => write_components cs | None, None => [] end))
       (VR r) (VR (rs_add_object (rt_obj p o) r))).
    { apply (tr_element _ _ _ _ _ KObj _ _ _ _ (VO r (head_obj o)) (VO r (rt_obj p o))); [reflexivity| | |].
      - intros s Hs. qc. assert (C : child reg isroot path KRes (mkName ns_core "object") s = COk (zlen (rs_objects r)) KObj (with_obj obj_zero false s)).
        { cbn [child]. unfold res_child. cbn [nspace nlocal]. rewrite seq_refl. change (seq "object" "object") with true. cbn iota. rewrite (vr_get r s Hs). reflexivity. }
        eexists _, _, _. split; [exact C|]. assert (V : VO r obj_zero (with_obj obj_zero false s)) by (split; [exact Hs|split; reflexivity]). split.
        + cbn [start]. rewrite (vo_get _ _ _ V), HA. reflexivity.
        + exact (vo_upd _ _ _ (fun _ => head_obj o) V).
      - eapply (tr_app _ _ _ _ _ _ _ _ _ (VO r (ob_set_md (ob_md o) (head_obj o)))).
        + destruct (mg_list (ob_md o)) as [|x l] eqn:EL.
          * apply tr_nil. intros s Hs. rewrite (md_opt _ F8 EL). exact Hs.
          * apply obj_group_read; [exact F8|reflexivity].
        + unfold rt_obj. destruct (ob_mesh o) as [m|] eqn:EM; [destruct (ob_comps o) as [cs|]; [destruct F10|]|destruct (ob_comps o) as [cs|] eqn:EC].
          * rewrite <- (write_mesh_same o (ob_set_md (ob_md o) (head_obj o)) m eq_refl eq_refl).
            apply (mesh_read r (ob_set_md (ob_md o) (head_obj o)) m F10).
          * destruct F10 as (_ & _ & F10 & F11). apply (components_read r (ob_set_md (ob_md o) (head_obj o)) cs F10 F11).
          * apply tr_nil. intros s Hs. exact Hs.
      - intros s Hs. rewrite (qual_core e HE). cbn [end_]. rewrite (vo_get _ _ _ Hs). apply (vr_upd r). apply Hs. }
    destruct (nonempty (ob_thumb o)); [apply tr_rel|]; exact B.
  Qed.
  Lemma object_print o : ObjFits e known p prefixes o -> Prints e false false (write_object p o).
  Proof.
    intros (F1 & F2 & F3 & F4 & F5 & F6 & F7 & F8 & F9 & F10). unfold write_object. apply pr_app; [destruct (nonempty _); [apply pr_rel|apply pr_nil]|].
    apply pr_element; [apply tag_core; reflexivity| |apply pr_app].
    - unfold object_attrs. fit; [apply safe_writable, safe_type, F7|]. apply (any_fit reg e false "object"), F9.
    - destruct (mg_list (ob_md o)); [apply pr_nil|]. apply group_print, F8.
    - destruct (ob_mesh o) as [m|]; [destruct (ob_comps o); [destruct F10|apply mesh_print, F10]|]. destruct (ob_comps o) as [cs|]; [|apply pr_nil].
      destruct F10 as (_ & _ & F10 & F11). apply components_print; assumption.
  Qed.

  (** *** assets *)
  Lemma vb_get r b s : VB r b s -> get_bm path s = b.
  Proof. intros (_ & H & D). unfold get_bm. rewrite D. exact H. Qed.
  Lemma vb_upd r b s f : VB r b s -> VB r (f b) (upd_bm path f s).
  Proof. intros (H1 & H & D). unfold upd_bm. rewrite D. split; [exact H1|]. cbn. rewrite H. split; reflexivity. Qed.
  Lemma basemats_read r b : U32 (bs_id b) -> Forall (BaseFits e known) (bs_mats b) -> AnyFits e known false "basematerials" (bs_any b) ->
    Tr KRes false (write_basemats b) (VR r) (VR (rs_add_asset (ABase b) r)).
  Proof.
    intros F1 F2 F3. eapply (tr_element _ _ _ _ _ KBaseMats _ _ _ _ (VB r (mkBM (bs_id b) [] (bs_any b))) (VB r b)); [reflexivity| |apply tr_auto|].
    - intros s Hs. qc. assert (C : child reg isroot path KRes (mkName ns_core "basematerials") s = COk (zlen (rs_assets r)) KBaseMats (res_set path r (with_bm bm_zero false s))).
      { cbn [child]. unfold res_child. cbn [nspace nlocal]. rewrite seq_refl. change (seq "basematerials" "object") with false. change (seq "basematerials" "basematerials") with true. cbn iota.
        change (res_get path (with_bm bm_zero false s)) with (res_get path s). rewrite (vr_get r s Hs). reflexivity. }
      eexists _, _, _. split; [exact C|]. assert (V : VB r bm_zero (res_set path r (with_bm bm_zero false s))).
      { split; [apply (vr_set r); exact Hs|]. rewrite res_set_model. split; reflexivity. }
      split.
      + cbn [start]. rewrite (vb_get _ _ _ V), (bm_attrs_read reg e _ _ F1 F3). reflexivity.
      + exact (vb_upd _ _ _ (fun _ => _) V).
    - apply (tr_conseq _ _ _ _ _ _ _ (VB r (mkBM (bs_id b) [] (bs_any b))) _ (VB r (mkBM (bs_id b) (bs_mats b) (bs_any b)))); [auto|destruct b; auto|].
      apply (tr_map _ _ _ _ _ _ _ (fun d => VB r (mkBM (bs_id b) d (bs_any b)))). intros d c l E. pose proof (base_attrs_read reg e c (in_mid _ _ _ _ _ F2 E)) as H.
      apply (tr_empty _ _ _ _ _ KBase); [reflexivity|]. intros s Hs. qc. eexists _, _, _, _. split; [reflexivity|]. split; [cbn [start]; rewrite H; reflexivity|]. split; [reflexivity|].
      exact (vb_upd _ _ _ (fun bm => mkBM (bs_id bm) (bs_mats bm ++ [c]) (bs_any bm)) Hs).
    - intros s Hs. rewrite (qual_core e HE). cbn [end_]. rewrite (vb_get _ _ _ Hs). apply (vr_upd r). apply Hs.
  Qed.
  Lemma first_id a id : IdOf a id -> match first_attr (is_attr "id") a with Some x => get_u32 x true = (id, None) | None => id = 0%N end.
  Proof.
    intros [(l & v & r & -> & N & E)|[N ->]].
    - induction l as [|b l IH]; cbn [app first_attr].
      + change (is_attr "id" (mkAttr (mkName "" "id") v)) with true. cbn iota. Local Transparent get_u32. unfold get_u32. cbn [avalue]. rewrite E. reflexivity. Local Opaque get_u32.
      + destruct (is_attr "id" b) eqn:X; [exfalso|apply IH; intros w Hw; apply (N w); right; exact Hw].
        unfold is_attr in X. apply andb_true_iff in X as [X1 X2]. destruct b as [[sp lo] w]. cbn in *. destruct (seq_spec sp ""); [|discriminate]. destruct (seq_spec lo "id"); [|discriminate]. subst. apply (N w). left. reflexivity.
    - induction a as [|b l IH]; cbn [first_attr]; [reflexivity|].
      destruct (is_attr "id" b) eqn:X; [exfalso|apply IH; intros w Hw; apply (N w); right; exact Hw].
      unfold is_attr in X. apply andb_true_iff in X as [X1 X2]. destruct b as [[sp lo] w]. cbn in *. destruct (seq_spec sp ""); [|discriminate]. destruct (seq_spec lo "id"); [|discriminate]. subst. apply (N w). left. reflexivity.
  Qed.
  Lemma asset_read r a : AssetFits e known p a -> Tr KRes false (write_asset p a) (VR r) (VR (rs_add_asset (rt_asset p a) r)).
  Proof.
    intros F. destruct a as [b|id ts|x]; cbn [AssetFits write_asset rt_asset] in *.
    - destruct F as (F1 & F2 & F3). apply basemats_read; assumption.
    - destruct F as (n & a & inner & -> & (H1 & H2 & H3 & H4 & H5 & H6) & HI).
      apply (unknown_read reg isroot path e _ KUnkAsset _ (fun us s => VR r s /\ s_unk s = us /\ s_unk_id s = id)); [reflexivity|reflexivity|exact H1|exact H6| | |].
      + intros s Hs. assert (C : child reg isroot path KRes n s = COk (zlen (rs_assets r)) KUnkAsset (res_set path r (with_unk [] 0 s))).
        { cbn [child]. unfold res_child. destruct (seq_spec (nspace n) ns_core); [contradiction|]. rewrite (load_unknown reg _ H3).
          change (res_get path (with_unk [] 0 s)) with (res_get path s). rewrite (vr_get r s Hs). reflexivity. }
        assert (V : VR r (res_set path r (with_unk [] 0 s)) /\ s_unk (res_set path r (with_unk [] 0 s)) = [] /\ s_unk_id (res_set path r (with_unk [] 0 s)) = 0%N).
        { split; [apply (vr_set r); exact Hs|]. rewrite res_set_model. split; reflexivity. }
        destruct V as (V1 & V2 & V3). pose proof (first_id a id HI) as X. eexists _, _, _. split; [exact C|]. cbn [start]. rewrite V2, V3. destruct (first_attr (is_attr "id") a) as [y|].
        * rewrite X. split; [reflexivity|]. split; [exact V1|split; reflexivity].
        * subst id. split; [reflexivity|]. split; [exact V1|split; reflexivity].
      + intros us t s (V1 & V2 & V3). cbn [append_token]. split; [exact V1|]. cbn. rewrite V2. split; [reflexivity|exact V3].
      + intros s (V1 & V2 & V3). cbn [end_]. rewrite V2, V3. apply (vr_upd r). exact V1.
    - destruct F as [F NB]. set (V y := VR (rs_add_asset (AExt y) r)).
      apply (ext_read reg isroot path e p LRes V) with (ok := fun y => match y with XBeamLattice _ => false | _ => true end); try (intros; reflexivity); try exact F.
      + intros y s Hs. unfold get_ext. rewrite (vr_get _ _ Hs). cbn [rs_add_asset rs_assets]. rewrite last_snoc. reflexivity.
      + intros y s f Hs. unfold upd_ext. rewrite (vr_get _ _ Hs). cbn [rs_add_asset rs_assets rs_objects rs_any]. rewrite upd_last_snoc. apply (vr_set _ _ _ Hs).
      + intros y s v Hs. exact Hs.
      + intros y s v Hs. exact Hs.
      + intros s n sp xk x0 Hs HL HD HO. eexists _, _. split; [|exact (vr_set _ (rs_add_asset (AExt x0) r) _ Hs)].
        cbn [child]. unfold res_child. destruct (seq_spec (nspace n) ns_core) as [EC|_]; [rewrite EC in HL; exfalso|].
        * unfold load in HL. vm_compute in HL. discriminate HL.
        * rewrite HL, HD. destruct x0; try discriminate HO; rewrite (vr_get _ _ Hs); reflexivity.
      + repeat split.
      + intros g ->. exfalso. apply (NB g). reflexivity.
  Qed.
  Lemma asset_print a : AssetFits e known p a -> Prints e false false (write_asset p a).
  Proof.
    intros F. destruct a as [b|id ts|x]; cbn [AssetFits write_asset] in *.
    - destruct F as (F1 & F2 & F3). apply pr_element; [apply tag_core; reflexivity|fit; apply (any_fit reg e false "basematerials"), F3|]. apply pr_auto.
      apply (prints_each e _ _ _ _ _ F2). intros c (H1 & H2 & H3). apply pr_empty; [apply tag_core; reflexivity|]. fit. apply (any_fit reg e false "base"), H3.
    - destruct F as (n & a & inner & -> & (H1 & H2 & H3 & H4 & H5 & H6) & _). apply pr_tokens; assumption.
    - apply (ext_prints e known p x), F.
  Qed.

  (** *** resources, below the model *)
  Lemma resources_read r0 r : ResFits e known p prefixes r -> rs_assets r0 = [] -> rs_objects r0 = [] -> rs_any r0 = [] ->
    Tr KModel false (write_resources p r) (VR r0) (VR (rt_res p r)).
  Proof.
    intros (F1 & F2 & F3) E1 E2 E3. set (R0 := mkRes [] [] (rs_any r)).
    apply (tr_element _ _ _ _ _ KRes _ _ _ _ (VR R0) (VR (rt_res p r))); [reflexivity| | |].
    - intros s Hs. qc. assert (ER : r0 = res_zero) by (destruct r0; cbn in *; subst; reflexivity).
      exists (-1)%Z, s. destruct (any_attrs (rs_any r)) as [|a l] eqn:EA.
      + exists s. split; [reflexivity|]. split; [reflexivity|]. pose proof (any_start reg e _ _ F3) as X. rewrite EA in X. injection X as X. unfold R0. rewrite <- X. rewrite <- E3. destruct r0. cbn in *. subst. exact Hs.
      + eexists. split; [reflexivity|]. split; [|apply (vr_set r0 R0 s Hs)]. cbn [start]. rewrite (vr_get _ _ Hs), E3, <- EA, (any_start reg e _ _ F3), E1, E2. reflexivity.
    - eapply (tr_app _ _ _ _ _ _ _ _ _ (VR (mkRes (map (rt_asset p) (rs_assets r)) [] (rs_any r)))).
      + apply (tr_list _ _ _ _ _ _ _ (fun d => VR (mkRes (map (rt_asset p) d) [] (rs_any r)))). intros d a l E. rewrite map_app. apply (asset_read (mkRes (map (rt_asset p) d) [] (rs_any r)) a), (in_mid _ _ _ _ _ F1 E).
      + apply (tr_list _ _ _ _ _ _ _ (fun d => VR (mkRes (map (rt_asset p) (rs_assets r)) (map (rt_obj p) d) (rs_any r)))). intros d a l E. rewrite map_app. apply (object_read (mkRes (map (rt_asset p) (rs_assets r)) (map (rt_obj p) d) (rs_any r)) a), (in_mid _ _ _ _ _ F2 E).
    - intros s Hs. eexists. split; [reflexivity|]. exact Hs.
  Qed.
  Lemma resources_print r : ResFits e known p prefixes r -> Prints e false false (write_resources p r).
  Proof.
    intros (F1 & F2 & F3). apply pr_element; [apply tag_core; reflexivity|apply (any_fit reg e false "resources"), F3|]. apply pr_app.
    - apply (prints_all e _ _ _ _ _ F1), asset_print.
    - apply (prints_all e _ _ _ _ _ F2), object_print.
  Qed.
End Core.
