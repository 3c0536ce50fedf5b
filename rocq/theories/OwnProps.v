(** C96: who owns the settings of configuration blocks. *)
From Verif Require Import Base ConfigModel BlockSpec BlockProofs OwnModel OwnSpec OwnProofs.

(** Programs that never use a block again after merging it into another one with new settings allowed: every call shows
    exactly what it would show if each variable held a tree of its own, and so does every variable at the end.  The
    program is undefined only by using a variable without an object or a block that is not there; in particular no
    setting is read, written or freed after it has been freed. *)
Theorem C96_programs : forall ops, keeps_rule [] ops ->
  match v_run v_start ops with
  | None => o_run o_start ops = UB
  | Some (P, shown) =>
      exists w, o_run o_start ops = Ok (w, shown) /\
      forall i, ~ In i (fold_left given_after ops []) ->
        match ow_root w i, P i with
        | Some b, Some B => shows (h_set (ow_heap w)) b B
        | None, None => True
        | _, _ => False
        end
  end.
Proof.
  intros ops K. assert (H := run_sim ops o_start v_start [] inv_start K). destruct (v_run v_start ops) as [[P l]|]; [|exact H].
  destruct H as (w & g & R1 & R2 & I). exists w. split; [exact R1|]. intros i Hi. subst g. assert (O := iv_root _ _ _ I i Hi). unfold owned in O.
  destruct (ow_root w i), (P i); try contradiction; [apply O|exact Logic.I].
Qed.
Print Assumptions C96_programs.

(** In such programs a call changes what one variable shows and leaves all others as they are. *)
Theorem C96_one_variable : forall ops o w l w' l' k b X, keeps_rule [] (ops ++ [o]) ->
  o_run o_start ops = Ok (w, l) -> o_run o_start (ops ++ [o]) = Ok (w', l') ->
  k <> changes o -> ~ In k (fold_left given_after (ops ++ [o]) []) ->
  ow_root w k = Some b -> shows (h_set (ow_heap w)) b X ->
  exists b', ow_root w' k = Some b' /\ shows (h_set (ow_heap w')) b' X.
Proof. exact run_frame. Qed.
Print Assumptions C96_one_variable.

(** One Merge of a tree into another that shares no setting with it.  The target shows the merged tree, the names returned
    are those of the merge of the values, nothing else in the program changes, and the source shows what it showed. *)
Theorem C96_merge : forall cb h this allow A B,
  (forall i x, h_set h i = Some x -> i < h_next h) ->
  shows (h_set h) this A -> shows (h_set h) cb B ->
  NoDup (ids this) -> NoDup (ids cb) -> (forall i, In i (ids cb) -> ~ In i (ids this)) -> (allow = true -> uniq B) ->
  exists h' this', o_merge cb h this allow = Ok (h', this', snd (merge B A allow)) /\
    shows (h_set h') this' (fst (merge B A allow)) /\ shows (h_set h') cb B /\
    (forall i, i < h_next h -> ~ In i (ids this) -> h_set h' i = h_set h i) /\
    (allow = false -> forall k, In k (ids this') -> In k (ids this)).
Proof.
  intros cb h this allow A B W SA SB NA NB D U.
  destruct (o_merge_ok cb h this allow A B W SA SB NA NB D U) as (h' & this' & R1 & R2 & R3 & R4 & R5). exists h', this'.
  split; [exact R1|]. split; [exact R2|]. split; [|split; [exact R4|]].
  - apply shows_frame with (c := h_set h); [|exact SB]. intros i Hi. apply R4; [exact (shows_lt h cb B i W SB Hi)|exact (D i Hi)].
  - intros -> k Hk. destruct R3 as [_ _ _ _ G]. destruct (G k Hk) as [Q|[Q _]]; [exact Q|discriminate].
Qed.
Print Assumptions C96_merge.

(** Which objects the two trees share after a Merge that may add settings: exactly the settings that are new in a block that
    was there before.  Settings of new blocks are copies. *)
Theorem C96_merge_shares : forall cb h this A B h' this' u,
  (forall i x, h_set h i = Some x -> i < h_next h) ->
  shows (h_set h) this A -> shows (h_set h) cb B ->
  NoDup (ids this) -> NoDup (ids cb) -> (forall i, In i (ids cb) -> ~ In i (ids this)) -> uniq B ->
  o_merge cb h this true = Ok (h', this', u) ->
  forall p k x, loc p k cb -> h_set h k = Some x -> (In k (ids this') <-> shared_at A p (sname x)).
Proof.
  intros cb h this A B h' this' u W SA SB NA NB D U E.
  destruct (o_merge_ok cb h this true A B W SA SB NA NB D (fun _ => U)) as (h1 & this1 & R1 & R2 & R3 & R4 & R5).
  rewrite E in R1. injection R1 as <- <- _. exact (R5 eq_refl).
Qed.
Print Assumptions C96_merge_shares.

(** Deleting two trees that share a setting is undefined, whatever else they hold. *)
Theorem C96_delete_shared : forall b c h k, In k (ids b) -> In k (ids c) -> NoDup (ids b) ->
  (forall i, In i (ids b) -> h_set h i <> None) ->
  exists h', o_delete b h = Ok h' /\ (forall i, In i (ids b) -> h_set h' i = None) /\
    (forall i, ~ In i (ids b) -> h_set h' i = h_set h i) /\ o_delete c h' = UB.
Proof.
  intros b c h k Hb Hc N L. destruct (o_delete_spec b h N L) as (h' & R1 & R2 & R3 & _). exists h'.
  split; [exact R1|]. split; [exact R3|]. split; [exact R2|]. apply (o_delete_dead c h' k); [exact Hc|apply R3; exact Hb].
Qed.
Print Assumptions C96_delete_shared.

(** A copy shows the same tree with settings that nothing else refers to, and leaves everything else as it is. *)
Theorem C96_copy : forall b h B, (forall i x, h_set h i = Some x -> i < h_next h) -> shows (h_set h) b B ->
  exists h' b', o_copy b h = Ok (h', b') /\ shows (h_set h') b' (copy_block B) /\ NoDup (ids b') /\
    (forall i, i < h_next h -> h_set h' i = h_set h i) /\ (forall i, In i (ids b') -> h_next h <= i).
Proof.
  intros b h B W S. destruct (o_copy_spec b h B W S) as (h' & b' & R1 & R2 & R3 & R4 & R5 & R6 & R7). exists h', b'.
  repeat split; try assumption. intros i Hi. apply R7. exact Hi.
Qed.
Print Assumptions C96_copy.

(** Parents: as long as no block is copied, the parent of every block is the block it is in, and the root of a tree has
    none. *)
Theorem C96_parents : forall ops w l, o_run o_start ops = Ok (w, l) -> Forall no_copy ops ->
  forall i b, ow_root w i = Some b -> ob_parent b = None /\ parents_ok b.
Proof. intros ops w l H F. apply (run_parents ops o_start w l H F). intros i b E. discriminate. Qed.
Print Assumptions C96_parents.

(** The blocks of a copy have the parents of the originals. *)
Theorem C96_copy_parents : forall b h h' b', o_copy b h = Ok (h', b') ->
  forall p, option_map ob_parent (o_at p b') = option_map ob_parent (o_at p b).
Proof. exact o_copy_parent. Qed.
Print Assumptions C96_copy_parents.

(** * What does not hold *)

Definition st (s : string) : str := str_of s.

(** The documentation of Merge does not say that the source must not be used any more.  Using it, a setting given to one
    block later appears in the other one. *)
Definition shared_program : list oop :=
  [ ONew 0 0 (st "a") []; ONew 1 0 (st "b") []; OAdd 1 [] (st "x") [st "1"]; OMerge 0 [] 1 [] true;
    OAdd 0 [] (st "x") [st "2"]; OGet 1 [] (st "x") ].

Theorem C96_independent_refuted : exists w P,
  o_run o_start shared_program = Ok (w, [ObsNone; ObsNone; ObsNone; ObsNames []; ObsNone; ObsValues (Some [st "2"])]) /\
  v_run v_start shared_program = Some (P, [ObsNone; ObsNone; ObsNone; ObsNames []; ObsNone; ObsValues (Some [st "1"])]).
Proof. eexists. eexists. split; vm_compute; reflexivity. Qed.
Print Assumptions C96_independent_refuted.

(** Deleting both, or using one after deleting the other, is undefined, although each variable holds an object. *)
Theorem C96_delete_refuted : exists P1 P2 l1 l2,
  v_run v_start (firstn 4 shared_program ++ [ODelete 0; ODelete 1]) = Some (P1, l1) /\
  o_run o_start (firstn 4 shared_program ++ [ODelete 0; ODelete 1]) = UB /\
  v_run v_start (firstn 4 shared_program ++ [ODelete 1; OGet 0 [] (st "x")]) = Some (P2, l2) /\
  o_run o_start (firstn 4 shared_program ++ [ODelete 1; OGet 0 [] (st "x")]) = UB.
Proof. do 4 eexists. repeat split; vm_compute; reflexivity. Qed.
Print Assumptions C96_delete_refuted.

(** The parent of a block inside a copy is the block that was copied, not the copy. *)
Theorem C96_copy_parent_refuted : exists w l b c x,
  o_run o_start [ONew 0 0 (st "a") []; OSub 0 [] 1 (st "s") []; OCopy 0 1 []] = Ok (w, l) /\
  ow_root w 0 = Some b /\ ow_root w 1 = Some c /\ o_at [0] c = Some x /\
  ob_parent x = Some (ob_addr b) /\ ob_addr b <> ob_addr c /\ ~ parents_ok c.
Proof.
  do 5 eexists. split; [vm_compute; reflexivity|]. split; [reflexivity|]. split; [reflexivity|]. split; [reflexivity|].
  split; [reflexivity|]. split; [discriminate|]. intros [H _]. discriminate.
Qed.
Print Assumptions C96_copy_parent_refuted.

(** A program that keeps to the rule: merges with and without new settings, copies, deletes, and reads through every tree. *)
Definition sound_program : list oop :=
  [ ONew 0 0 (st "a") []; OSub 0 [] 1 (st "s") (st "t"); OAdd 0 [0] (st "x") [st "1"]; OAdd 0 [] (st "y") [st "2"; st "3"];
    OCopy 0 1 []; OAdd 1 [0] (st "x") [st "7"]; OAdd 1 [0] (st "z") [st "8"];
    OMerge 0 [] 1 [] false; OGet 0 [0] (st "x"); OAdd 1 [0] (st "x") [st "9"]; OGet 0 [0] (st "x");
    OMerge 0 [] 1 [] true; OGet 0 [0] (st "z"); ONew 1 0 (st "b") []; OAdd 1 [] (st "q") []; ODelete 0; OGet 1 [] (st "q"); ODelete 1 ].

Example C96_example : keeps_rule [] sound_program /\ exists w,
  o_run o_start sound_program = Ok (w, [ObsNone; ObsNone; ObsNone; ObsNone; ObsNone; ObsNone; ObsNone; ObsNames [st "z"];
    ObsValues (Some [st "7"]); ObsNone; ObsValues (Some [st "7"]); ObsNames []; ObsValues (Some [st "8"]); ObsNone; ObsNone; ObsNone; ObsValues (Some []); ObsNone]).
Proof.
  split; [|eexists; vm_compute; reflexivity].
  simpl. repeat split; try discriminate; try (intros i Hi; intuition (subst; try discriminate; auto)).
Qed.

Example C96_shares_example : exists h cb this h' this' u A B k x,
  (forall i y, h_set h i = Some y -> i < h_next h) /\ shows (h_set h) this A /\ shows (h_set h) cb B /\
  NoDup (ids this) /\ NoDup (ids cb) /\ (forall i, In i (ids cb) -> ~ In i (ids this)) /\ uniq B /\
  o_merge cb h this true = Ok (h', this', u) /\ loc [] k cb /\ h_set h k = Some x /\ shared_at A [] (sname x).
Proof.
  set (s1 := mkSet (st "x") [st "1"] false). set (s2 := mkSet (st "y") [st "2"] false).
  exists (Heap (fun i => match i with 0 => Some s1 | 1 => Some s2 | _ => None end) 2 2), (OB 0 None 0 (st "a") [] [0] []), (OB 1 None 0 (st "b") [] [1] []).
  eexists. eexists. eexists. exists (CB 0 (st "b") [] [s2] []), (CB 0 (st "a") [] [s1] []), 0, s1.
  split; [intros [|[|i]] y H; simpl in *; [lia|lia|discriminate]|]. split; [simpl; repeat split|]. split; [simpl; repeat split|].
  split; [repeat constructor; intros []|]. split; [repeat constructor; intros []|]. split; [intros i [<-|[]] [H|[]]; discriminate|].
  split; [repeat constructor; intros []|]. split; [vm_compute; reflexivity|]. split; [left; reflexivity|]. split; [reflexivity|].
  eexists. split; [reflexivity|vm_compute; reflexivity].
Qed.
