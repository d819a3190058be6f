(* C177: the server header. *)
From Coq Require Import String.
From Verif Require Import Base Text TextOps ConfModel RouteModel SvModel SvSpec.
Open Scope N_scope.

Section Thms.
  Context (same : text -> text -> bool) (conv : text -> text) (same_refl : forall k, same k k = true).
  Lemma named_insert h : named same (txt "server") (with_server same h) = [txt "wmproxy"].
  Proof.
    unfold with_server, h_insert, named. cbn [flat_map fst snd]. rewrite same_refl. cbn [app]. f_equal.
    unfold h_remove. induction h as [|kv h IH]; [reflexivity|]. cbn [filter]. destruct (same (txt "server") (fst kv)) eqn:E; cbn [negb flat_map]; [exact IH|]. rewrite E. exact IH.
  Qed.
  Lemma others_insert h : others same (txt "server") (with_server same h) = others same (txt "server") h.
  Proof.
    unfold with_server, h_insert, others. cbn [flat_map fst]. rewrite same_refl. cbn [app]. unfold h_remove.
    induction h as [|kv h IH]; [reflexivity|]. cbn [filter]. destruct (same (txt "server") (fst kv)) eqn:E; cbn [negb flat_map]; rewrite ?E; [exact IH|]. now rewrite IH.
  Qed.
  (* C177, full statement: every answer names the server once, as wmproxy or as the header
     rules say, and has all other headers and the status as they were made.  Proved: answers
     that a handler gives name it once, as wmproxy. *)
  Theorem C177_server_partial : forall o s h, exists h', answered same o (HAnswer s h) = Some (s, h') /\
    named same (txt "server") h' = [txt "wmproxy"] /\ others same (txt "server") h' = others same (txt "server") h.
  Proof. intros o s h. exists (with_server same h). split; [reflexivity|]. split; [apply named_insert|apply others_insert]. Qed.
  (* False of the code: what the header rules say of it has no effect, *)
  Theorem C177_rules_refuted : forall o reused rules s h s' h', through same conv o reused rules s h = Some (s', h') ->
    s' = s /\ named same (txt "server") h' = [txt "wmproxy"].
  Proof. intros o reused rules s h s' h' [= <- <-]. split; [reflexivity|apply named_insert]. Qed.
  (* and the answers to errors do not have it; with another name the rules do have effect. *)
  Theorem C177_error_refuted : forall f, exists s h, answered same Reverse (HError f) = Some (s, h) /\
    named same (txt "server") h = [] /\ (s = 408 <-> fl_timeout f = true /\ fl_client f = false) /\ (s = 500 <-> ~ (fl_timeout f = true /\ fl_client f = false)).
  Proof. intros [[|] [|]]; cbn [answered fl_timeout fl_client andb negb]; eexists _, _; (split; [reflexivity|]); (split; [reflexivity|]); split; split; intros; try reflexivity; try discriminate; try tauto; try (destruct H; discriminate); intros [? ?]; discriminate. Qed.
  Theorem C177_added_partial : forall o reused k v s h s' h', o = MapHttp \/ o = Reverse /\ reused = false -> same (txt "server") k = false ->
    through same conv o reused [CHeader OAdd false k v] s h = Some (s', h') -> others same (txt "server") h' = others same (txt "server") h ++ [(k, conv v)].
  Proof.
    intros o reused k v s h s' h' O K [= <- <-]. rewrite others_insert. unfold others.
    assert (E : forall l : headers, flat_map (fun kv => if same (txt "server") (fst kv) then [] else [kv]) (l ++ [(k, conv v)]) =
                flat_map (fun kv => if same (txt "server") (fst kv) then [] else [kv]) l ++ [(k, conv v)]).
    { intros l. rewrite flat_map_app. cbn [flat_map fst]. rewrite K. reflexivity. }
    destruct O as [->|[-> ->]]; exact (E h).
  Qed.
End Thms.
Example C177_demo :
  through leqb (fun v => v) Reverse false [CHeader OReplace false (txt "server") (txt "mine"); CHeader OAdd false (txt "x") (txt "1")] 200
    [(txt "server", txt "nginx"); (txt "date", txt "now")] =
  Some (200, [(txt "server", txt "wmproxy"); (txt "date", txt "now"); (txt "x", txt "1")]).
Proof. vm_compute. reflexivity. Qed.
Print Assumptions C177_server_partial.
Print Assumptions C177_rules_refuted.
Print Assumptions C177_error_refuted.
Print Assumptions C177_added_partial.
