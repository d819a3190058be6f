(* C191: which answers a rate limit applies to. *)
From Coq Require Import String.
From Verif Require Import Base Text TextOps AddrModel ConfModel RouteModel InhModel InhProofs InhProps FileModel RaModel.
Open Scope N_scope.

(* the answer is the list of a directory *)
Definition is_listing {A} (a : sent A) : Prop := exists f ns links, a = SFiles f /\ s_body f = BList ns links.
(* it is part or all of a file *)
Definition is_file {A} (a : sent A) : Prop := exists f ns content part, a = SFiles f /\ s_body f = BFile ns content part.

Section Props.
  Context {V A : Type} (as_err : V -> V) (files : fcfg -> freq -> res unit fresp).
  Implicit Types (h : ihttp (V := V)) (own : fcfg) (q : freq) (st bk : option (res unit A)).

  Lemma level (c s : common (V := V)) t k : k = rate_limit \/ k = max_read_buf ->
    c_set (pre_deal as_err (copy_from_parent c (pre_deal as_err (copy_from_parent s (pre_deal as_err t))))) k = nearest (c_set c k) (c_set s k) (c_set t k).
  Proof. intros [-> | ->]; reflexivity. Qed.
  Lemma listing_or (a : fresp) c : (exists ns links, s_body a = BList ns links /\ body_pace c (s_body a) = Pace (c_set c max_read_buf) (get_rate_limit c)) \/
    (forall ns links, s_body a <> BList ns links) /\ body_pace (V := V) c (s_body a) = Pace None None.
  Proof. destruct (s_body a) eqn:E; [right|right|right|left; eexists; eexists; split; reflexivity]; (split; [intros; discriminate|reflexivity]). Qed.

  (* proved: below the root of its server, a list of a directory is sent at the limit of the
     nearest level that sets one, and in pieces of the size of the nearest level that sets it *)
  Theorem C191_listing_partial : forall h i j sv l r f, at_loc h i j sv l -> i_root l = None -> v_root sv = Some r -> i_file l = Some f ->
    exists sv' l', at_loc (fill_http as_err h) i j sv' l' /\
    forall own st bk q a p, paced files l' own st bk q = Ok (a, p) -> is_listing a ->
      p_rate p = nearest (c_set (i_comm l) rate_limit) (c_set (v_comm sv) rate_limit) (c_set (h_comm h) rate_limit) /\
      p_buf p = nearest (c_set (i_comm l) max_read_buf) (c_set (v_comm sv) max_read_buf) (c_set (h_comm h) max_read_buf).
  Proof.
    intros h i j sv l r f H Hr Hv Hf. destruct (filled as_err h i j sv l H) as (sv' & H1 & H2). exists sv'. eexists. split; [split; [exact H1|exact H2]|].
    intros own st bk q a p E (f0 & ns & links & -> & B). unfold paced, fill_location in E. cbn [v_root v_comm] in E. rewrite Hr, Hv, Hf in E. cbn [i_file option_map fill_file] in E.
    destruct (files _ q) as [x| |]; cbn [rbind] in E; try discriminate. injection E as E1 E2. subst x p. rewrite B. cbn [body_pace p_rate p_buf]. unfold file_comm, get_rate_limit. cbn [f_comm fill_file].
    split; [|reflexivity]. rewrite (level (i_comm l) (v_comm sv) (h_comm h) rate_limit) by (left; reflexivity).
    destruct (nearest _ _ _); reflexivity.
  Qed.

  (* such a location answers with what its file server says below the root of the server,
     with the fixed part of its rule taken off the path *)
  Theorem C191_below : forall h i j sv l r f, at_loc h i j sv l -> i_root l = None -> v_root sv = Some r -> i_file l = Some f ->
    InhModel.f_root f = None -> InhModel.f_prefix f = [] ->
    exists sv' l' p, at_loc (fill_http as_err h) i j sv' l' /\ fixed_part (m_path (i_rule l')) p /\
    forall own st bk q a pc, paced files l' own st bk q = Ok (a, pc) ->
      exists c x, a = SFiles x /\ files c q = Ok x /\ FileModel.f_root c = Some r /\ unslashed p (FileModel.f_prefix c).
  Proof.
    intros h i j sv l r f H Hr Hv Hf H5 H6. destruct (C61_server_root_partial as_err h i j sv l r f H Hr Hv Hf H5 H6) as (sv' & l' & p & u & L & F & P & U).
    exists sv', l', p. split; [exact L|]. split; [exact P|]. intros own st bk q a pc E. unfold paced in E. rewrite F in E.
    destruct (files (with_root _ own) q) as [x| |] eqn:X; cbn [rbind] in E; try discriminate. injection E as <- _.
    eexists. exists x. split; [reflexivity|]. split; [exact X|]. split; [reflexivity|exact U].
  Qed.

  (* false of the code: nothing else is sent at a limit, whatever is configured: no file,
     no text and nothing that came from a backend *)
  Theorem C191_others_refuted : forall (l : iloc (V := V)) own st bk q a p, paced files l own st bk q = Ok (a, p) -> ~ is_listing a ->
    p_rate p = None /\ p_buf p = None.
  Proof.
    intros l own st bk q a p E N. unfold paced in E. destruct (i_file l) as [f|].
    - destruct (files _ q) as [x| |]; cbn [rbind] in E; try discriminate. injection E as <- <-.
      destruct (listing_or x (file_comm f)) as [(ns & links & B & _)|[_ ->]]; [|split; reflexivity].
      destruct N. exists x, ns, links. split; [reflexivity|exact B].
    - destruct st as [[x| |]|]; cbn [rbind] in E; try discriminate; [injection E as <- <-; split; reflexivity|].
      destruct bk as [[x| |]|]; cbn [rbind] in E; try discriminate. injection E as <- <-. split; reflexivity.
  Qed.
  (* in particular no file *)
  Theorem C191_file_refuted : forall (l : iloc (V := V)) own st bk q a p, paced files l own st bk q = Ok (a, p) -> is_file a -> p_rate p = None.
  Proof.
    intros l own st bk q a p E (f & ns & ct & pt & -> & B). apply (C191_others_refuted l own st bk q _ p E).
    intros (g & ms & ls & F & C). injection F as <-. congruence.
  Qed.

  (* false of the code: if the location names its own root, or its server names none, no
     limit of the location, the server or the section has an effect, only one that is
     written below the file server itself *)
  Theorem C191_own_root_refuted : forall h i j sv l f, at_loc h i j sv l -> i_root l <> None \/ v_root sv = None -> i_file l = Some f ->
    exists sv' l', at_loc (fill_http as_err h) i j sv' l' /\
    forall own st bk q a p, paced files l' own st bk q = Ok (a, p) ->
      p_rate p = None \/ is_listing a /\ exists c, f_comm f = Some c /\ p_rate p = c_set c rate_limit.
  Proof.
    intros h i j sv l f H Hr Hf. destruct (filled as_err h i j sv l H) as (sv' & H1 & H2). exists sv'. eexists. split; [split; [exact H1|exact H2]|].
    intros own st bk q a p E. unfold paced, fill_location in E. cbn [v_root v_comm] in E.
    assert (K : (match i_root l, v_root sv with None, Some r => 1 | _, _ => 0 end) = 0).
    { destruct Hr as [Hr| ->]; destruct (i_root l); try reflexivity. destruct Hr; reflexivity. }
    assert (E' : (do a <- files (with_root f own) q ; Ok (SFiles (A := A) a, body_pace (file_comm f) (s_body a))) = Ok (a, p)).
    { rewrite <- E. destruct (i_root l), (v_root sv); cbn [i_file] in *; rewrite ?Hf; try reflexivity. discriminate K. }
    destruct (files (with_root f own) q) as [x| |]; cbn [rbind] in E'; try discriminate. injection E' as <- <-.
    destruct (listing_or x (file_comm f)) as [(ns & links & B & ->)|[_ ->]]; [|left; reflexivity].
    cbn [p_rate]. unfold file_comm, get_rate_limit. destruct (f_comm f) as [c|] eqn:F; [|left; reflexivity].
    right. split; [exists x, ns, links; split; [reflexivity|exact B]|]. exists c. split; [reflexivity|]. destruct (c_set c rate_limit); reflexivity.
  Qed.

  (* with nothing written below the file server, an answer is sent at a limit exactly if it
     is a list of a directory, the root is that of the server, and one of the levels sets
     a limit *)
  Theorem C191_exact : forall h i j sv l f, at_loc h i j sv l -> i_file l = Some f -> f_comm f = None ->
    exists sv' l', at_loc (fill_http as_err h) i j sv' l' /\
    forall own st bk q a p v, paced files l' own st bk q = Ok (a, p) ->
      (p_rate p = Some v <->
       is_listing a /\ i_root l = None /\ v_root sv <> None /\
       nearest (c_set (i_comm l) rate_limit) (c_set (v_comm sv) rate_limit) (c_set (h_comm h) rate_limit) = Some v).
  Proof.
    intros h i j sv l f H Hf Hc.
    destruct (i_root l) as [r|] eqn:R; [|destruct (v_root sv) as [r|] eqn:W].
    - assert (O : i_root l <> None \/ v_root sv = None) by (left; congruence).
      destruct (C191_own_root_refuted h i j sv l f H O Hf) as (sv' & l' & L & K).
      exists sv', l'. split; [exact L|]. intros own st bk q a p v E. split; [|intros (_ & D & _); discriminate].
      intros P. destruct (K own st bk q a p E) as [N|(_ & c & C & _)]; congruence.
    - destruct (C191_listing_partial h i j sv l r f H R W Hf) as (sv' & l' & L & K).
      exists sv', l'. split; [exact L|]. intros own st bk q a p v E. split.
      + intros P.
        assert (D : is_listing a \/ ~ is_listing a).
        { destruct a as [x|x|x]; [|right; intros (? & ? & ? & ? & _); discriminate|right; intros (? & ? & ? & ? & _); discriminate].
          destruct (listing_or x common_new) as [(ns & ls & B & _)|[B _]]; [left; exists x, ns, ls; split; [reflexivity|exact B]|].
          right. intros (y & ns & ls & Y & C). injection Y as <-. exact (B ns ls C). }
        destruct D as [D|D].
        * destruct (K own st bk q a p E D) as [E1 _]. split; [exact D|]. split; [reflexivity|]. split; [discriminate|]. congruence.
        * destruct (C191_others_refuted l' own st bk q a p E D) as [N _]. congruence.
      + intros (D & _ & _ & N). destruct (K own st bk q a p E D) as [E1 _]. congruence.
    - assert (O : i_root l <> None \/ v_root sv = None) by (right; exact W).
      destruct (C191_own_root_refuted h i j sv l f H O Hf) as (sv' & l' & L & K).
      exists sv', l'. split; [exact L|]. intros own st bk q a p v E. split; [|intros (_ & _ & D & _); congruence].
      intros P. destruct (K own st bk q a p E) as [N|(_ & c & C & _)]; congruence.
  Qed.
End Props.

(* a directory with one file, listed and read, below the root of the server and below a root
   of its own; the limit of the section is 7, that of the first location 3 *)
Example C191_demo :
  let fs := Dir [(txt "w", Dir [(txt "a", File [65] (Some 5))])] in
  let own := FCfg None [] (txt "text/plain") [] None None None [] [] 404 [] false true false in
  let deal := FileModel.deal (fun _ => None) (fun _ => None) (fun _ => []) (fun _ _ _ => true) fs [] (txt "/") in
  let set o := Common (V := N) (fun k => match k with rate_limit => o | _ => None end) [] [] [] in
  let l o r := ILoc (set o) (RouteModel.Matcher (Some (txt "/x/*")) None None None None None) None [] [] r (Some (InhModel.FServer r (match r with Some _ => txt "/x" | None => [] end) None)) in
  let h := IHttp (set (Some 7)) [] [IServer (set None) (txt "s") [] [] (Some (txt "/w")) [l (Some 3) None; l None None; l (Some 3) (Some (txt "/w"))]] in
  let get p l := match paced (A := N) deal l own None None (FReq p false None None None None None None) with
                 | Ok (SFiles a, p) => Some (s_status a, match s_body a with BList _ n => nlen n | _ => 0 end, p_rate p) | _ => None end in
  match nth_error (h_servers (fill_http (fun v => v) h)) 0 with
  | Some sv => map (get (txt "/x/")) (v_locs sv) = [Some (200, 1, Some 3); Some (200, 1, Some 7); Some (200, 1, None)] /\
               map (get (txt "/x/a")) (v_locs sv) = [Some (200, 0, None); Some (200, 0, None); Some (200, 0, None)]
  | None => False end.
Proof. vm_compute. split; reflexivity. Qed.
Print Assumptions C191_listing_partial.
Print Assumptions C191_below.
Print Assumptions C191_others_refuted.
Print Assumptions C191_file_refuted.
Print Assumptions C191_own_root_refuted.
Print Assumptions C191_exact.
