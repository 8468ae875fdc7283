(** C44: finding the processes of a running pipeline. *)
From Verif Require Import Py PathModel TreeModel TreeSpec TreeProofs.

(** Building the tree ends after at most four levels. *)
Theorem C44_terminates : forall slug depth ps, keeps_digits slug -> distinct_ids ps -> 4 <= depth -> children_tree slug depth ps <> None.
Proof. intros slug [|d] ps K D L; [lia|]. apply terminates; auto. Qed.
Print Assumptions C44_terminates.
(** Every process is at exactly one position, and nothing else is in the tree. *)
Theorem C44_exactly_once : forall slug depth ps t, distinct_ids ps -> children_tree slug depth ps = Some t ->
  forall p, (In p ps <-> exists path, found_at t path p) /\ (forall a b, found_at t a p -> found_at t b p -> a = b).
Proof. intros slug depth ps t D B. exact (tree_members slug depth 0 ps t D B). Qed.
Print Assumptions C44_exactly_once.
(** A program whose name no other process of the pipeline has is found directly
    under its name.  Partial: the name must be one that slugify leaves alone (no
    capitals), and not an attribute of the pipeline object. *)
Theorem C44_unique_name_partial : forall slug depth ps t p w ws rep, distinct_ids ps -> children_tree slug depth ps = Some t ->
  In p ps -> p_kind p = PProcess (w :: ws) rep -> slug w = w -> (forall c, hd_error w = Some c -> is_digit c = false) ->
  (forall q, In q ps -> node_key slug q 0 = w -> q = p) -> ~ In w pipeline_attrs -> ~ In w group_attrs ->
  pipeline_attr t w = ATree (Leaf p).
Proof.
  intros slug depth ps t p w ws rep D B I K SW HD U NP NG. destruct depth as [|d]; [discriminate|].
  assert (KEY : node_key slug p 0 = w).
  { unfold node_key, getkey. rewrite K. cbn [List.length]. rewrite andb_false_r. cbn [Nat.eqb]. rewrite SW. destruct w as [|c w']; [reflexivity|]. now rewrite (HD c eq_refl). }
  assert (EX : forall l, ~ In w l -> existsb (text_eqb w) l = false).
  { intros l N. destruct (existsb (text_eqb w) l) eqn:E; [|reflexivity]. apply existsb_exists in E as (x & X & E). destruct (text_eqb_spec w x); [subst; contradiction|discriminate]. }
  apply attr_direct; auto. rewrite <- KEY. apply (unique_direct slug d ps t p D B I). intros q Q E. apply U; [exact Q|congruence].
Qed.
Print Assumptions C44_unique_name_partial.
(** Processes with these names cannot be reached that way in any pipeline. *)
Theorem C44_reserved_refuted : forall t w, In w pipeline_attrs -> pipeline_attr t w = AOwn.
Proof.
  intros t w I. unfold pipeline_attr. assert (E : existsb (text_eqb w) pipeline_attrs = true).
  { apply existsb_exists. exists w. split; [exact I|]. destruct (text_eqb_spec w w); congruence. }
  now rewrite E.
Qed.
Print Assumptions C44_reserved_refuted.

(** A slugify for the examples: ASCII only, capitals to small letters, other
    characters removed or replaced. *)
Definition low (c : N) : N := if (65 <=? c)%N && (c <=? 90)%N then (c + 32)%N else c.
Definition a_slug (t : text) : text := map (fun c => let c := low c in if (is_digit c || ((97 <=? c) && (c <=? 122))%N) then c else 95%N) t.
Definition some_procs : list proc :=
  [mkP 11 (PProcess [txt "ls"] (txt "ls as 100")); mkP 12 (PProcess [txt "ls"] (txt "ls as 101"));
   mkP 13 (PProcess [txt "git"; txt "log"] (txt "git.log as 102")); mkP 14 (PProcess [txt "git"; txt "diff"] (txt "git.diff as 103"));
   mkP 15 (PFunction (txt "m.grep") (txt "m.grep()")); mkP 16 (PProcess [] (txt "7z as 104")); mkP 17 (PProcess [txt "wait"] (txt "wait as 105")); mkP 18 POther].
Example C44_nonvacuous : exists t, children_tree a_slug 4 some_procs = Some t /\ distinct_ids some_procs /\
  pipeline_attr t (txt "grep") = ATree (Leaf (mkP 15 (PFunction (txt "m.grep") (txt "m.grep()")))) /\
  found_at t [txt "git"; txt "git_log"] (mkP 13 (PProcess [txt "git"; txt "log"] (txt "git.log as 102"))) /\
  found_at t [txt "ls"; txt "ls_as_101"] (mkP 12 (PProcess [txt "ls"] (txt "ls as 101"))) /\
  found_at t [txt "n7z_as_104"] (mkP 16 (PProcess [] (txt "7z as 104"))) /\
  pipeline_attr t (txt "wait") = AOwn /\ found_at t [txt "wait"] (mkP 17 (PProcess [txt "wait"] (txt "wait as 105"))).
Proof.
  destruct (children_tree a_slug 4 some_procs) as [t|] eqn:E; [|vm_compute in E; discriminate]. exists t. split; [reflexivity|].
  vm_compute in E. injection E as <-. split; [|vm_compute; repeat split].
  unfold distinct_ids. cbn. repeat constructor; cbn; intuition discriminate.
Qed.
Example C44_slug_ok : keeps_digits a_slug.
Proof.
  intros t D. unfold a_slug. rewrite <- (map_id t) at 2. apply map_ext_in. intros c I. specialize (D c I). unfold is_digit in D.
  apply andb_true_iff in D as [A B]. apply N.leb_le in A, B. unfold low. assert ((65 <=? c)%N = false) as -> by (apply N.leb_gt; lia). cbn.
  unfold is_digit. assert ((48 <=? c)%N = true) as -> by (now apply N.leb_le). assert ((c <=? 57)%N = true) as -> by (now apply N.leb_le). reflexivity.
Qed.
(** All processes of one name, at every level: the ids decide. *)
Example C44_same_names : exists t, children_tree a_slug 4 [mkP 1 (PFunction (txt "f") (txt "f")); mkP 2 (PFunction (txt "f") (txt "f"))] = Some t /\
  found_at t [txt "f"; txt "f"; txt "f"; txt "n2"] (mkP 2 (PFunction (txt "f") (txt "f"))).
Proof. eexists. split; [vm_compute; reflexivity|]. vm_compute. reflexivity. Qed.
