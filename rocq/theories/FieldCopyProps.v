(** C125: copies of numeric magnetic fields. *)
From Coq Require Import Lia.
From Verif Require Import Base FieldOwnModel FieldOwnSpec FieldCopyModel FieldCopySpec FieldCopyProofs.

(** While neither of two related fields has been deleted, they give the same values and answer
    the same about the domain. *)
Theorem C125_same : forall A (e : A) h i k c, related e h c i k -> present c i -> present c k ->
  cstep e c (CCall (Evaluate i)) = cstep e c (CCall (Evaluate k)) /\
  cstep e c (CCall (AskDomain i)) = cstep e c (CCall (AskDomain k)).
Proof.
  intros A e h i k c H (oi & Oi) (ok & Ok'). destruct (related_family A e h c i k H) as (_ & (F & _) & b & B1 & B2).
  pose proof (F i k b oi ok B1 B2 Oi Ok') as ->.
  assert (object (c_base c) i = object (c_base c) k) as E by (unfold object; now rewrite Oi, Ok').
  assert (buffer c i = buffer c k) as G by (unfold buffer; now rewrite B1, B2).
  cbn [cstep step]. rewrite E, G. split; reflexivity.
Qed.
Print Assumptions C125_same.

(** Making a copy changes nothing else: no array, no other field, and the copy is a new number. *)
Theorem C125_makes : forall A (e : A) c i c' r, cstep e c (CCopy i) = Ok (c', r) ->
  r = RField (length (w_objs (c_base c))) /\
  w_heap (c_base c') = w_heap (c_base c) /\ c_live c' = c_live c /\
  (forall j, j < length (w_objs (c_base c)) -> nth_error (w_objs (c_base c')) j = nth_error (w_objs (c_base c)) j) /\
  nth_error (w_objs (c_base c')) (length (w_objs (c_base c))) = nth_error (w_objs (c_base c)) i /\
  length (w_objs (c_base c')) = S (length (w_objs (c_base c))).
Proof.
  intros A e c i c' r H. apply cstep_inv in H. destruct H as (o & b & E & B & -> & ->). cbn [c_base c_live w_heap w_objs].
  repeat split.
  - intros j L. now rewrite nth_error_app1 by exact L.
  - rewrite nth_error_app2, Nat.sub_diag by lia. symmetry. exact E.
  - rewrite app_length. cbn. lia.
Qed.
Print Assumptions C125_makes.

(** Once one of them is deleted, whatever happens afterwards, every use of the others is
    undefined: evaluating it, asking about its domain, cloning it (if it has any array) and
    deleting it. *)
Theorem C125_after : forall A (e : A) h x y c, related e h c x y -> deleted c x ->
  cstep e c (CCall (Evaluate y)) = UB /\
  cstep e c (CCall (Delete y)) = UB /\
  cstep e c (CCall (AskDomain y)) = UB /\
  ((exists p, owns (c_base c) y p) -> cstep e c (CCall (Clone y)) = UB).
Proof.
  intros A e h x y c H D. destruct (related_family A e h c x y H) as ((_ & _ & K3 & _) & (_ & F) & b & B1 & B2).
  pose proof (buffer_dead A c y b B2 (K3 x b D B1)) as U.
  split; [cbn [cstep]; now rewrite U|]. split; [cbn [cstep]; now rewrite U|].
  destruct (nth_error (w_objs (c_base c)) y) as [[o|]|] eqn:O.
  - exact (dead_object A e c y o O (F x y b o B1 B2 D O)).
  - cbn [cstep step]. unfold object. rewrite O. split; [reflexivity|intros _; reflexivity].
  - cbn [cstep step]. unfold object. rewrite O. split; [reflexivity|intros _; reflexivity].
Qed.
Print Assumptions C125_after.

(** So no defined program deletes two of them. *)
Theorem C125_once : forall A (e : A) h i k c, related e h c i k -> deleted c i -> deleted c k -> i = k.
Proof.
  intros A e h i k c H Di Dk. destruct (related_family A e h c i k H) as ((_ & _ & _ & K) & _ & b & B1 & B2).
  exact (K i k b Di Dk B1 B2).
Qed.
Print Assumptions C125_once.

(** Programs that make no copies are those of C101: same outcome, same arrays and fields. *)
Theorem C125_without : forall A (e : A) h cs,
  obind (crun e (cstart h) (map CCall cs)) (fun c => Ok (c_base c)) = run e (mkW h []) cs.
Proof. intros A e h cs. exact (apart_run A e cs (cstart h) (apart_start A h)). Qed.
Print Assumptions C125_without.

(** A caller's ten arrays, and a field with a wall made from them. *)
Definition copy_arrays : list (option nat) := map Some (seq 100 10).
Definition copy_wall : arrays := mkArrays [0; 1; 2; 3; 4] (Some 7) CNull (CPoints 5 6).

(** Deleting every field once is not enough when some are copies; with clones it is. *)
Theorem C125_delete_each_once_refuted :
  crun 0 (cstart copy_arrays) [CCall (MakeField copy_wall); CCopy 0; CCall (Delete 0); CCall (Delete 1)] = UB /\
  crun 0 (cstart copy_arrays) [CCall (MakeField copy_wall); CCopy 0; CCall (Delete 1); CCall (Evaluate 0)] = UB /\
  crun 0 (cstart copy_arrays) [CCall (MakeField copy_wall); CCall (Clone 0); CCall (Delete 0); CCall (Evaluate 1); CCall (Delete 1)] <> UB.
Proof. split; [reflexivity|]. split; [reflexivity|]. discriminate. Qed.
Print Assumptions C125_delete_each_once_refuted.

(** A copy and a copy of it, used, a clone, and the deletion of the original. *)
Example C125_example : exists c, related 0 copy_arrays c 0 2 /\ deleted c 0 /\ present c 1 /\ present c 2 /\ present c 3 /\
  (exists p, owns (c_base c) 2 p) /\
  (exists c' r, cstep 0 c (CCall (Evaluate 3)) = Ok (c', r)).
Proof.
  eexists. split.
  - apply (rel_trans _ _ _ _ 0 1 2); apply rel_copy.
    + exists [CCall (MakeField copy_wall)], [CCall (Evaluate 1); CCopy 1; CCall (AskDomain 1); CCall (Clone 1); CCall (Delete 0)].
      eexists. eexists. split; [vm_compute; reflexivity|]. split; [vm_compute; reflexivity|]. vm_compute. reflexivity.
    + exists [CCall (MakeField copy_wall); CCopy 0; CCall (Evaluate 1)], [CCall (AskDomain 1); CCall (Clone 1); CCall (Delete 0)].
      eexists. eexists. split; [vm_compute; reflexivity|]. split; [vm_compute; reflexivity|]. vm_compute. reflexivity.
  - split; [reflexivity|]. split; [eexists; reflexivity|]. split; [eexists; reflexivity|]. split; [eexists; reflexivity|]. split.
    + exists 0. eexists. split; [reflexivity|]. vm_compute. tauto.
    + eexists. eexists. vm_compute. reflexivity.
Qed.
