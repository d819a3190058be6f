(* C32, C61: inheritance of settings. *)
From Coq Require Import String.
From Verif Require Import Base Text TextOps AddrModel ConfModel RouteModel InhModel InhProofs.
Open Scope N_scope.

(* the first level that sets a value *)
Definition nearest {A} (l s h : option A) : option A :=
  match l with Some v => Some v | None => match s with Some v => Some v | None => h end end.

(* the fixed part of a path rule: the rule without its wildcards, / if nothing is
   left or there is no rule *)
Definition fixed_part (rule : option text) (p : text) : Prop :=
  match rule with
  | None => p = txt "/"
  | Some s => exists q, q = filter (fun c => negb (c =? 42)) s /\
      (p = q /\ (q <> [] \/ ~ In 42 s) \/ p = txt "/" /\ q = [] /\ In 42 s)
  end.
(* q is p without one slash at its end *)
Definition unslashed (p q : text) : Prop := p = q ++ txt "/" \/ p = q /\ ~ exists r, p = r ++ txt "/".
Lemma fixed_part_ok m : fixed_part (m_path m) (get_path m).
Proof.
  unfold fixed_part, get_path. destruct (m_path m) as [s|]; [|reflexivity].
  exists (text_replace 42 s). split; [reflexivity|].
  destruct (existsb (fun c => c =? 42) s) eqn:E.
  - apply existsb_exists in E as (x & Hx & E). apply N.eqb_eq in E as ->.
    destruct (text_replace 42 s) eqn:F; [right; repeat split; exact Hx|left; split; [reflexivity|left; discriminate]].
  - assert (N : ~ In 42 s).
    { intros H. assert (existsb (fun c => c =? 42) s = true) by (apply existsb_exists; exists 42; split; [exact H|reflexivity]). congruence. }
    left. split; [|right; exact N].
    unfold text_replace. symmetry. clear -N. induction s as [|x s IH]; [reflexivity|]. cbn [filter].
    destruct (N.eqb_spec x 42) as [->|]; [destruct N; left; reflexivity|]. cbn [negb]. f_equal. apply IH. intros H. apply N. right. exact H.
Qed.
Lemma unslashed_ok p : unslashed p (fix_prefix p).
Proof.
  unfold unslashed, fix_prefix. destruct (strip_suffix [47] p) as [q|] eqn:E.
  - left. apply strip_suffix_some in E. exact E.
  - right. split; [reflexivity|]. apply strip_suffix_none in E. exact E.
Qed.

Section Props.
  Context {V : Type} (as_err : V -> V).
  (* location l of server sv of h, before and after the settings are handed down *)
  Definition at_loc (h : @ihttp V) (i j : nat) (sv : iserver) (l : iloc) : Prop :=
    nth_error (h_servers h) i = Some sv /\ nth_error (v_locs sv) j = Some l.
  Lemma filled h i j sv l : at_loc h i j sv l ->
    exists sv', nth_error (h_servers (fill_http as_err h)) i = Some sv' /\
      nth_error (v_locs sv') j = Some (fill_location as_err
        (IServer (pre_deal as_err (copy_from_parent (v_comm sv) (pre_deal as_err (h_comm h)))) (v_up sv) (v_upstream sv ++ h_upstream h) (v_headers sv) (v_root sv) (v_locs sv)) l).
  Proof.
    intros [H1 H2]. unfold fill_http. cbn [h_servers h_comm h_upstream]. eexists. split.
    - rewrite nth_error_map, H1. reflexivity.
    - unfold fill_server. cbn [v_locs]. rewrite nth_error_map, H2. reflexivity.
  Qed.

  (* C32 (part): all settings but the six below are handed down: they take the value of the nearest level that
     sets them (error_log after as_error, which turns its format into a level) *)
  Theorem C32_settings_partial : forall h i j sv l k, at_loc h i j sv l ->
    ~ In k [client_ka_timeout; proxy_read_timeout; proxy_write_timeout; proxy_timeout; domain; proxy_url] -> (forall v, as_err (as_err v) = as_err v) ->
    exists sv' l', at_loc (fill_http as_err h) i j sv' l' /\
      c_set (i_comm l') k = option_map (match k with error_log => as_err | _ => fun v => v end)
                              (nearest (c_set (i_comm l) k) (c_set (v_comm sv) k) (c_set (h_comm h) k)).
  Proof.
    intros h i j sv l k H Hk' Hi. assert (Hk : copied k = true) by (destruct k; try reflexivity; exfalso; apply Hk'; cbn; tauto).
    destruct (filled h i j sv l H) as (sv' & H1 & H2). exists sv'. eexists. split; [split; [exact H1|exact H2]|].
    unfold fill_location. destruct (match i_root l, _ with | None, Some _ => _ | _, _ => _ end) as [root file]. cbn [i_comm].
    cbn [v_comm c_set pre_deal copy_from_parent]. rewrite Hk. unfold nearest.
    destruct (c_set (i_comm l) k), (c_set (v_comm sv) k), (c_set (h_comm h) k), k; cbn; rewrite ?Hi; reflexivity.
  Qed.
  (* what a location sets itself wins *)
  Theorem C32_own_wins : forall h i j sv l k v, at_loc h i j sv l -> c_set (i_comm l) k = Some v ->
    exists sv' l', at_loc (fill_http as_err h) i j sv' l' /\ c_set (i_comm l') k = Some (match k with error_log => as_err v | _ => v end).
  Proof.
    intros h i j sv l k v H Hv. destruct (filled h i j sv l H) as (sv' & H1 & H2). exists sv'. eexists. split; [split; [exact H1|exact H2]|].
    unfold fill_location. destruct (match i_root l, _ with | None, Some _ => _ | _, _ => _ end) as [root file]. cbn [i_comm].
    cbn [v_comm c_set pre_deal copy_from_parent]. rewrite Hv. destruct (copied k), k; reflexivity.
  Qed.
  (* false of the code: six settings are never handed down *)
  Theorem C32_not_inherited_refuted : forall h i j sv l k, at_loc h i j sv l ->
    In k [client_ka_timeout; proxy_read_timeout; proxy_write_timeout; proxy_timeout; domain; proxy_url] ->
    exists sv' l', at_loc (fill_http as_err h) i j sv' l' /\ c_set (i_comm l') k = c_set (i_comm l) k.
  Proof.
    intros h i j sv l k H Hk. destruct (filled h i j sv l H) as (sv' & H1 & H2). exists sv'. eexists. split; [split; [exact H1|exact H2]|].
    unfold fill_location. destruct (match i_root l, _ with | None, Some _ => _ | _, _ => _ end) as [root file]. cbn [i_comm].
    cbn in Hk. repeat (destruct Hk as [<-|Hk]; [reflexivity|]). destruct Hk.
  Qed.
  (* false of the code: a log name (and likewise a log format) of the server or of
     the http section replaces the location's own *)
  Theorem C32_log_names_refuted : forall h i j sv l n own v, at_loc h i j sv l ->
    lookup leqb n (c_log_names (i_comm l)) = Some own -> NoDup (map fst (c_log_names (h_comm h))) ->
    lookup leqb n (c_log_names (h_comm h)) = Some v -> NoDup (map fst (over (c_log_names (v_comm sv)) (c_log_names (h_comm h)))) ->
    exists sv' l', at_loc (fill_http as_err h) i j sv' l' /\ lookup leqb n (c_log_names (i_comm l')) = Some v.
  Proof.
    intros h i j sv l n own v H Ho N1 Hv N2. destruct (filled h i j sv l H) as (sv' & H1 & H2). exists sv'. eexists. split; [split; [exact H1|exact H2]|].
    unfold fill_location. destruct (match i_root l, _ with | None, Some _ => _ | _, _ => _ end) as [root file]. cbn [i_comm].
    cbn [v_comm c_log_names pre_deal copy_from_parent]. rewrite lookup_over by exact N2. rewrite lookup_over by exact N1. rewrite Hv. reflexivity.
  Qed.
  (* named rules: the nearest definition of a name is used *)
  Theorem C32_match_names : forall h i j sv l n, at_loc h i j sv l ->
    exists sv' l', at_loc (fill_http as_err h) i j sv' l' /\
      lookup leqb n (c_match (i_comm l')) =
        nearest (lookup leqb n (c_match (i_comm l))) (lookup leqb n (c_match (v_comm sv))) (lookup leqb n (c_match (h_comm h))).
  Proof.
    intros h i j sv l n H. destruct (filled h i j sv l H) as (sv' & H1 & H2). exists sv'. eexists. split; [split; [exact H1|exact H2]|].
    unfold fill_location. destruct (match i_root l, _ with | None, Some _ => _ | _, _ => _ end) as [root file]. cbn [i_comm].
    cbn [v_comm c_match pre_deal copy_from_parent]. rewrite !lookup_under. unfold nearest.
    destruct (lookup leqb n (c_match (i_comm l))), (lookup leqb n (c_match (v_comm sv))); reflexivity.
  Qed.
  Lemma name_of (m : RouteModel.matcher) n : m_path m = Some (txt "@" ++ n) -> ~ In 64 n -> match_name m = Some n.
  Proof.
    intros H N. unfold match_name. rewrite H. change (starts_with [64] (txt "@" ++ n)) with true. cbn iota. f_equal.
    change (text_replace 64 (txt "@" ++ n)) with (filter (fun x => negb (x =? 64)) n). clear H. induction n as [|c n IH]; [reflexivity|]. cbn [filter].
    destruct (N.eqb_spec c 64) as [->|D]; [destruct N; left; reflexivity|]. cbn [negb]. f_equal. apply IH. intros X. apply N. right. exact X.
  Qed.
  (* and a location whose path is @name gets the rule of that name *)
  Theorem C32_named_rule : forall h i j sv l n m, at_loc h i j sv l -> m_path (i_rule l) = Some (txt "@" ++ n) -> ~ In 64 n ->
    nearest (lookup leqb n (c_match (i_comm l))) (lookup leqb n (c_match (v_comm sv))) (lookup leqb n (c_match (h_comm h))) = Some m ->
    exists sv' l', at_loc (fill_http as_err h) i j sv' l' /\ i_rule l' = m.
  Proof.
    intros h i j sv l n m H Hp Hn0 Hm. assert (Hn := name_of (i_rule l) n Hp Hn0). destruct (filled h i j sv l H) as (sv' & H1 & H2). exists sv'. eexists. split; [split; [exact H1|exact H2]|].
    unfold fill_location. destruct (match i_root l, _ with | None, Some _ => _ | _, _ => _ end) as [root file]. cbn [i_rule]. rewrite Hn.
    cbn [v_comm c_match pre_deal copy_from_parent]. rewrite !lookup_under. unfold nearest in Hm.
    destruct (lookup leqb n (c_match (i_comm l))); [congruence|]. destruct (lookup leqb n (c_match (v_comm sv))); [congruence|]. rewrite Hm. reflexivity.
  Qed.
  (* backends and header rules of a location: its own, then the server's, then (for
     backends) those of the http section; its server is the one it stands in *)
  Theorem C32_lists : forall h i j sv l, at_loc h i j sv l ->
    exists sv' l', at_loc (fill_http as_err h) i j sv' l' /\
      i_upstream l' = i_upstream l ++ v_upstream sv ++ h_upstream h /\ i_headers l' = i_headers l ++ v_headers sv /\
      i_up l' = Some (v_up sv) /\ i_root l' = nearest (i_root l) (v_root sv) None.
  Proof.
    intros h i j sv l H. destruct (filled h i j sv l H) as (sv' & H1 & H2). exists sv'. eexists. split; [split; [exact H1|exact H2]|].
    unfold fill_location, nearest. cbn [v_root v_upstream v_headers v_up]. destruct (i_root l), (v_root sv); cbn; auto.
  Qed.
  (* C61: false of the code: the file server of a location that has its own root
     gets neither that root, nor the location's path as prefix, nor its limits *)
  Theorem C61_own_root_refuted : forall h i j sv l r, at_loc h i j sv l -> i_root l = Some r ->
    exists sv' l', at_loc (fill_http as_err h) i j sv' l' /\ i_file l' = i_file l.
  Proof.
    intros h i j sv l r H Hr. destruct (filled h i j sv l H) as (sv' & H1 & H2). exists sv'. eexists. split; [split; [exact H1|exact H2]|].
    unfold fill_location. rewrite Hr. reflexivity.
  Qed.
  (* proved: with the server's root and none of its own it gets all three *)
  Theorem C61_server_root_partial : forall h i j sv l r f, at_loc h i j sv l -> i_root l = None -> v_root sv = Some r -> i_file l = Some f ->
    f_root f = None -> f_prefix f = [] ->
    exists sv' l' p q, at_loc (fill_http as_err h) i j sv' l' /\
      i_file l' = Some (FServer (Some r) q (Some (i_comm l'))) /\ fixed_part (m_path (i_rule l')) p /\ unslashed p q.
  Proof.
    intros h i j sv l r f H Hr Hv Hf H5 H6. destruct (filled h i j sv l H) as (sv' & H1 & H2). exists sv'. eexists. exists (get_path (i_rule (fill_location as_err
        (IServer (pre_deal as_err (copy_from_parent (v_comm sv) (pre_deal as_err (h_comm h)))) (v_up sv) (v_upstream sv ++ h_upstream h) (v_headers sv) (v_root sv) (v_locs sv)) l))).
    eexists. split; [split; [exact H1|exact H2]|]. split; [|split; [apply fixed_part_ok|apply unslashed_ok]].
    unfold fill_location. cbn [v_root]. rewrite Hr, Hv, Hf. cbn. unfold fill_file. rewrite H5, H6. reflexivity.
  Qed.
End Props.

Example C32_demo :
  let empty := Common (V := N) (fun _ => None) [] [] [] in
  let hc := Common (fun k => match k with rate_limit => Some 7 | proxy_timeout => Some 8 | deny_ip => Some 9 | _ => None end) [] [(txt "a", txt "http")] [] in
  let lc := Common (fun k => match k with deny_ip => Some 1 | _ => None end) [] [(txt "a", txt "loc")] [] in
  let l := ILoc lc (RouteModel.Matcher (Some (txt "/x*")) None None None None None) None [1] [] None (Some (FServer None [] None)) in
  let h := IHttp hc [3] [IServer empty (txt "s") [2] [] (Some (txt "/www")) [l]] in
  match nth_error (h_servers (fill_http (fun v => v) h)) 0 with
  | Some sv => match nth_error (v_locs sv) 0 with
    | Some l' => c_set (i_comm l') rate_limit = Some 7 /\ c_set (i_comm l') deny_ip = Some 1 /\ c_set (i_comm l') proxy_timeout = None /\
                 lookup leqb (txt "a") (c_log_names (i_comm l')) = Some (txt "http") /\ i_upstream l' = [1; 2; 3] /\
                 option_map f_root (i_file l') = Some (Some (txt "/www")) /\ option_map f_prefix (i_file l') = Some (txt "/x")
    | None => False end
  | None => False end.
Proof. vm_compute. repeat split; reflexivity. Qed.
Print Assumptions C32_settings_partial.
Print Assumptions C32_own_wins.
Print Assumptions C32_not_inherited_refuted.
Print Assumptions C32_log_names_refuted.
Print Assumptions C32_match_names.
Print Assumptions C32_named_rule.
Print Assumptions C32_lists.
Example C61_cases :
  let empty := Common (V := N) (fun _ => None) [] [] [] in
  let l r := ILoc empty (RouteModel.Matcher (Some (txt "/x/*")) None None None None None) None [1] [] r (Some (FServer None [] None)) in
  let h := IHttp empty [] [IServer empty (txt "s") [] [] (Some (txt "/www")) [l None; l (Some (txt "/own"))]] in
  match nth_error (h_servers (fill_http (fun v => v) h)) 0 with
  | Some sv => map (fun l' => option_map (fun f => (f_root f, f_prefix f)) (i_file l')) (v_locs sv) =
               [Some (Some (txt "/www"), txt "/x"); Some (None, [])]
  | None => False end.
Proof. vm_compute. reflexivity. Qed.
Print Assumptions C61_own_root_refuted.
Print Assumptions C61_server_root_partial.
