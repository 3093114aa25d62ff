(** * Theorems: errors of writing are reported: C69 *)
From Coq Require Import Lia.
From Verif Require Import GoBase GoNum GoUtf8 GoFloat Types PkgTypes WriteTypes XmlTypes M_Core M_Xml M_Printer M_Decode M_Encode M_Package M_Write S_Write P_Package P_Write.

Definition bytes (p : Part) : string * string * string := (pt_name p, pt_ctype p, pt_data p).
Lemma wanted normalize resolve refuses prec order1 order2 streams m w :
  encode normalize resolve refuses prec order1 order2 (filled streams m) = Some w ->
  map bytes (pk_parts w) = map (att_want normalize) (combine (mo_atts m) streams) ++
    (normalize (path_or_default m), ctype_model, M_Package.xml_header +++ print (write_model prec m)) :: map (child_want normalize resolve prec m) order2.
Proof.
  intros E. apply encode_parts in E as [_ E]. rewrite E, map_app. cbn [map]. f_equal; [|f_equal].
  - cbn [mo_atts filled]. rewrite !map_map. apply map_ext. intros [a s]. reflexivity.
  - rewrite map_map. apply map_ext. intros [k c]. reflexivity.
Qed.
(** If Encode returns no error then all calls of the package writer succeeded, the package was closed, and each part has all its
    bytes: whatever the writer, the size of the buffer, the pieces of escaped texts and streams and the places of Flush. *)
Theorem C69_complete : forall W size esc flushed normalize resolve refuses prec order1 order2 streams m w h,
  1 <= size -> (forall s, joined (esc s) = escape_text s) ->
  encode normalize resolve refuses prec order1 order2 (filled streams m) = Some w -> List.length streams = List.length (mo_atts m) ->
  encode_io W size normalize resolve (fun l => printer_calls esc (flushed l) l) prec order2 streams m = (h, None) ->
  Answered W h /\ parts_got h = map bytes (pk_parts w) /\ Fine h /\ (forall s, In s streams -> snd s = None) /\ exists h0, h = h0 ++ [EvClose None].
Proof.
  intros * Pos Esc E L H. apply wanted in E. split; [exact (encode_io_answered _ _ _ _ _ _ _ _ _ _ _ H)|]. apply (encode_io_spec W size Pos normalize resolve _ (fun l => printer_calls_text esc Esc (flushed l) l)) in H.
  cbv zeta in H. rewrite <- E in H. destruct H as ((F & G) & S & C). split; [exact G|]. split; [exact F|]. split; [|exact C].
  intros s I. apply In_nth_error in I as [i I]. destruct (nth_error (mo_atts m) i) as [a|] eqn:N.
  - apply (S a). apply (nth_error_In _ i). clear S E. revert streams I L N. generalize (mo_atts m). clear. induction i as [|i IH]; intros [|x l] [|y r] I L N; try discriminate; cbn in *; [congruence|apply IH; auto].
  - apply nth_error_None in N. assert (i < List.length streams) by (apply nth_error_Some; congruence). lia.
Qed.
Print Assumptions C69_complete.
(** If it returns an error, that is the error of the first call of the package writer that failed, or that of a stream; there is
    no call after it, and what was written is the beginning of the package. *)
Theorem C69_reported : forall W size esc flushed normalize resolve refuses prec order1 order2 streams m w h e,
  1 <= size -> (forall s, joined (esc s) = escape_text s) ->
  encode normalize resolve refuses prec order1 order2 (filled streams m) = Some w ->
  encode_io W size normalize resolve (fun l => printer_calls esc (flushed l) l) prec order2 streams m = (h, Some e) ->
  Answered W h /\
  ((exists h0 x, h = h0 ++ [x] /\ Fine h0 /\ failing x = Some e) \/ (Fine h /\ exists d, In (d, Some e) streams)) /\
  Begins (parts_got h) (map bytes (pk_parts w)).
Proof.
  intros * Pos Esc E H. apply wanted in E. split; [exact (encode_io_answered _ _ _ _ _ _ _ _ _ _ _ H)|]. apply (encode_io_spec W size Pos normalize resolve _ (fun l => printer_calls_text esc Esc (flushed l) l)) in H.
  cbv zeta in H. rewrite <- E in H. destruct H as [[H B]|(a & d & I & F & B)]; specialize (B []); rewrite app_nil_r in B; (split; [|exact B]).
  - left. exact H.
  - right. split; [exact F|]. exists d. apply in_combine_r in I. exact I.
Qed.
Print Assumptions C69_reported.
(** A writer that takes everything gets everything *)
Theorem C69_succeeds : forall W size esc flushed normalize resolve refuses prec order1 order2 streams m w h e,
  1 <= size -> (forall s, joined (esc s) = escape_text s) ->
  encode normalize resolve refuses prec order1 order2 (filled streams m) = Some w -> List.length streams = List.length (mo_atts m) ->
  (forall h n c, o_create W h n c = None) -> (forall h s, o_write W h s = None) -> (forall h, o_close W h = None) -> (forall s, In s streams -> snd s = None) ->
  encode_io W size normalize resolve (fun l => printer_calls esc (flushed l) l) prec order2 streams m = (h, e) ->
  e = None /\ parts_got h = map bytes (pk_parts w).
Proof.
  intros * Pos Esc E L O1 O2 O3 S H. destruct e as [e|].
  - exfalso. destruct (C69_reported _ _ _ _ _ _ _ _ _ _ _ _ _ _ _ Pos Esc E H) as [A [[(h0 & x & -> & _ & X)|(_ & d & D)] _]].
    + apply answered_last in A. rewrite X in A. destruct A as [(n & c & A)|[(s & n & A)|A]]; rewrite ?O1, ?O2, ?O3 in A; discriminate.
    + apply S in D. discriminate.
  - split; [reflexivity|]. exact (proj1 (proj2 (C69_complete _ _ _ _ _ _ _ _ _ _ _ _ _ _ Pos Esc E L H))).
Qed.
Print Assumptions C69_succeeds.
(** A model with a picture and a child; a writer that takes everything, one that fails in the middle of the root model, and a
    stream that cannot be read *)
Definition two_pieces (s : string) : list string := [stake 1 (escape_text s); sdrop 1 (escape_text s)].
Definition ex_child : Child := mkChild (mkRes [] [mkObj 1 "a<b" "" "" 0 0 0 (mkMG [] []) None None []] []) [] [].
Definition ex_saved : Model := mkModel "" "" 0 "" res_zero (mkBuild [] []) [mkAtt "" "/3D/t.png" "image/png"] [] [] [("/a.model", ex_child)] [] [] [] [].
Definition all_fine : Oracle := mkOracle (fun _ _ _ => None) (fun _ _ => None) (fun _ => None).
Definition full_disk : Oracle := mkOracle (fun _ _ _ => None) (fun h _ => if Nat.leb 6 (List.length h) then Some (3, WErr 28) else None) (fun _ => None).
Definition save_to (W : Oracle) (streams : list Stream) : list ev * option werr :=
  encode_io W 16 (fun n => n) (fun _ n => n) (fun l => printer_calls two_pieces (Nat.eqb 9) l) 4 (mo_childs ex_saved) streams ex_saved.
Definition ex_streams (e : option werr) : list Stream := [(["pic"; ""; "ture"], e)].
Example C69_nonvacuous : (forall s, joined (two_pieces s) = escape_text s) /\
  (exists w h, encode (fun n => n) (fun _ n => n) (fun _ _ _ => false) 4 (mo_childs ex_saved) (mo_childs ex_saved) (filled (ex_streams None) ex_saved) = Some w /\
     List.length (pk_parts w) = 3 /\ save_to all_fine (ex_streams None) = (h, None) /\ 10 < List.length h) /\
  (exists h, save_to full_disk (ex_streams None) = (h, Some (WErr 28)) /\ List.length h = 7 /\ List.length (parts_got h) = 2) /\
  (exists h, save_to all_fine (ex_streams (Some (WRead 5))) = (h, Some (WRead 5)) /\ parts_got h = [("/3D/t.png", "image/png", "picture")]).
Proof.
  split; [|split; [|split]].
  - intros s. unfold joined, two_pieces. cbn [fold_right]. rewrite sapp_nil_r. apply stake_drop.
  - eexists _, _. split; [vm_compute; reflexivity|]. split; [reflexivity|]. split; [vm_compute; reflexivity|]. cbn. lia.
  - eexists. split; [vm_compute; reflexivity|]. split; reflexivity.
  - eexists. split; [vm_compute; reflexivity|]. reflexivity.
Qed.
