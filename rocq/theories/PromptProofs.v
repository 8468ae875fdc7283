(** Proofs about the prompt. *)
From Verif Require Import Py PathModel PathSpec PathProofs EnvModel EnvSpec EnvProofs PromptModel.

Lemma home_text w h dh : m_home (w_m w) [] = Some h -> is_dir h dh -> d_names dh <> [] -> expanduser (m_home (w_m w)) [c_tilde] = render dh.
Proof.
  intros H [O ->] N. unfold expanduser. rewrite N.eqb_refl. cbn [before_slash]. rewrite H. rewrite rstrip_render by assumption. rewrite app_nil_r.
  destruct (render_head dh) as [r ->]. reflexivity.
Qed.
Lemma starts_app p q : startswith (p ++ q) p = true.
Proof. induction p as [|c p IH]; cbn [List.app]; [apply startswith_nil|]. now rewrite startswith_cons, N.eqb_refl, IH. Qed.
Lemma skip_app (p q : text) : skipn (List.length p) (p ++ q) = q.
Proof. induction p as [|c p IH]; [reflexivity|exact IH]. Qed.
Lemma join_app ns ms : ns <> [] -> ms <> [] -> join_with [c_slash] (ns ++ ms) = join_with [c_slash] ns ++ c_slash :: join_with [c_slash] ms.
Proof.
  induction ns as [|n ns IH]; intros A B; [congruence|]. destruct ns as [|n2 ns].
  - cbn [List.app]. destruct ms as [|m ms]; [congruence|]. reflexivity.
  - change (join_with [c_slash] ((n :: n2 :: ns) ++ ms)) with (n ++ [c_slash] ++ join_with [c_slash] ((n2 :: ns) ++ ms)). rewrite IH by (congruence || discriminate).
    change (join_with [c_slash] (n :: n2 :: ns)) with (n ++ [c_slash] ++ join_with [c_slash] (n2 :: ns)). now rewrite <- !app_assoc.
Qed.
Lemma render_below dh ms : d_names dh <> [] -> ms <> [] -> render (mkDir (d_two dh) (d_names dh ++ ms)) = render dh ++ c_slash :: join_with [c_slash] ms.
Proof. intros A B. unfold render. cbn [d_two d_names]. rewrite join_app by assumption. now rewrite <- app_assoc. Qed.
Lemma walk_down d ms : Forall name_ok ms -> ms <> [] -> walk d (c_slash :: join_with [c_slash] ms) = mkDir (d_two d) (d_names d ++ ms).
Proof.
  intros F N. rewrite walk_slash. unfold walk. rewrite split_join; [|exact N|]. now rewrite enter_names. eapply Forall_impl; [|exact F]. intros n H. apply H.
Qed.
Lemma not_tilde_render d : startswith (render d) [c_tilde] = false.
Proof. destruct (render_head d) as [r ->]. reflexivity. Qed.
