(* C153-C157 and further parts of C69, C70: the headers of an answer with a file,
   If-Range, the default type, the working directory as root, encoded paths. *)
From Coq Require Import String.
From Verif Require Import Base Text TextOps FileModel FileSpec FileProofs FileProps.
Open Scope N_scope.

(* ---- C153: the headers ---------------------------------------------------------- *)
(* headers that are set from the configuration and the file alone *)
Definition steady (k : text) : Prop := k <> txt "Content-Range" /\ k <> txt "Content-Length" /\ k <> txt "Accept-Ranges".
Lemma head_steady q len k r : steady k -> hget k (head_body q len r) = hget k r.
Proof. intros (_ & A & B). unfold head_body. destruct (q_head q); [|reflexivity]. rewrite !hget_hset_ne by assumption. reflexivity. Qed.
Lemma after_steady date fmt seek c q mt len r0 k : steady k ->
  hget k (fst (after_file date fmt seek c q mt len r0)) = hget k (meta_headers fmt mt len (plain_headers c r0)).
Proof.
  intros K. unfold after_file. set (r := meta_headers fmt mt len (plain_headers c r0)).
  destruct (range_wanted q); [|cbn [fst]; apply head_steady; exact K]. destruct (if_range_ok date q mt len); [|reflexivity].
  destruct (q_range q) as [v|]; [|cbn [fst]; apply head_steady; exact K]. destruct (calc_bytes_range v len) as [(s, e)|].
  - destruct (seek _ s e); cbn [fst]; [|reflexivity]. rewrite head_steady, hget_status by exact K. rewrite hget_hset_ne by apply K. reflexivity.
  - cbn [fst]. rewrite head_steady, hget_body by exact K. rewrite hget_hset_ne by apply K. reflexivity.
Qed.
(* every answer for a file was made by after_file, from 304 or from the file *)
Lemma asks_after decode date fmt seek fs cwd cwdt c q ns content mt r :
  asks_for fs cwd cwdt c q ns content mt -> deal decode date fmt seek fs cwd cwdt c q = Ok r ->
  exists r0, r = fst (after_file date fmt seek c q mt (nlen content) r0) /\
    (r0 = FResp 304 [] BNone \/ exists m, r0 = FResp 200 [(txt "Content-Type", m); (txt "Transfer-Encoding", txt "chunked")] (BFile ns content None)).
Proof.
  intros AF D. destruct (deal_asks decode date fmt seek _ _ _ _ _ _ _ _ AF) as (m & E & A). rewrite E in D. unfold send_file in D. rewrite A in D.
  destruct (try_cache date fmt seek c q mt (nlen content)) as [r'|] eqn:T.
  - injection D as <-. exists (FResp 304 [] BNone). split; [|auto]. unfold try_cache in T.
    destruct (match q_inm q with Some v => leqb v (calc_etag mt (nlen content)) | None => false end); [congruence|].
    destruct (q_ims q), mt; try discriminate. destruct (_ =? _); congruence.
  - match type of D with context [after_file date fmt seek c q mt (nlen content) ?x] => set (r0 := x) in D end.
    exists r0. destruct (after_file date fmt seek c q mt (nlen content) r0) as (r1, ok) eqn:F. destruct ok; [|discriminate]. injection D as <-.
    split; [reflexivity|]. right. exists (content_type m). reflexivity.
Qed.

Theorem C153_headers : forall decode date fmt seek fs cwd cwdt c q ns content mt r,
  asks_for fs cwd cwdt c q ns content mt -> deal decode date fmt seek fs cwd cwdt c q = Ok r ->
  hget (txt "Cache-Control") r = option_map (fun s => txt "max-age=" ++ show s) (f_cache c) /\
  hget (txt "Access-Control-Allow-Origin") r = (if f_cors c then Some (txt "*") else None) /\
  hget (txt "Access-Control-Allow-Headers") r = (if f_cors c then Some (txt "Origin, X-Requested-With, Content-Type, Accept, Range") else None) /\
  hget (txt "Last-Modified") r = option_map fmt mt /\
  exists tag, hget (txt "ETag") r = Some tag /\
    forall mt' len', tag = calc_etag mt' len' -> secs mt' = secs mt /\ len' = nlen content.
Proof.
  intros decode date fmt seek fs cwd cwdt c q ns content mt r AF D. destruct (asks_after _ _ _ _ _ _ _ _ _ _ _ _ _ AF D) as (r0 & -> & R0).
  assert (NO : forall k, k <> txt "Content-Type" -> k <> txt "Transfer-Encoding" -> hget k r0 = None).
  { intros k N1 N2. destruct R0 as [-> |(m & ->)]; [reflexivity|]. unfold hget. cbn [s_headers lookup].
    destruct (leqb k (txt "Content-Type")) eqn:E1; [apply leqb_ok in E1; contradiction|]. destruct (leqb k (txt "Transfer-Encoding")) eqn:E2; [apply leqb_ok in E2; contradiction|]. reflexivity. }
  rewrite !after_steady by (repeat split; discriminate).
  assert (M : forall k x, k <> txt "Last-Modified" -> k <> txt "ETag" -> hget k (meta_headers fmt mt (nlen content) x) = hget k x).
  { intros k x N1 N2. unfold meta_headers. rewrite hget_hset_ne by assumption. destruct mt; [rewrite hget_hset_ne by assumption|]; reflexivity. }
  rewrite !M by discriminate. clear M.
  assert (P : forall k, k <> txt "Content-Type" -> k <> txt "Transfer-Encoding" -> k <> txt "Content-Encoding" ->
     hget k (plain_headers c r0) = hget k (let r := match f_cache c with Some s => hset (txt "Cache-Control") (txt "max-age=" ++ show s) r0 | None => r0 end in
       if f_cors c then hset (txt "Access-Control-Allow-Origin") (txt "*") (hset (txt "Access-Control-Allow-Headers") (txt "Origin, X-Requested-With, Content-Type, Accept, Range") r) else r)).
  { intros k N1 N2 N3. unfold plain_headers. destruct (f_nocomp c); [rewrite hget_hset_ne by assumption|]; reflexivity. }
  split; [|split; [|split; [|split]]].
  - rewrite P by discriminate. cbv zeta. destruct (f_cors c); rewrite ?hget_hset_ne by discriminate; (destruct (f_cache c); [apply hget_hset|apply NO; discriminate]).
  - rewrite P by discriminate. cbv zeta. destruct (f_cors c); [apply hget_hset|]. destruct (f_cache c); rewrite ?hget_hset_ne by discriminate; apply NO; discriminate.
  - rewrite P by discriminate. cbv zeta. destruct (f_cors c); [rewrite hget_hset_ne by discriminate; apply hget_hset|]. destruct (f_cache c); rewrite ?hget_hset_ne by discriminate; apply NO; discriminate.
  - unfold meta_headers. rewrite hget_hset_ne by discriminate. destruct mt; [apply hget_hset|]. cbn [option_map].
    rewrite P by discriminate. cbv zeta. destruct (f_cors c), (f_cache c); rewrite ?hget_hset_ne by discriminate; apply NO; discriminate.
  - exists (calc_etag mt (nlen content)). split; [apply hget_hset|]. intros mt' len' E. apply etag_inj in E. destruct E as (E1 & E2). auto.
Qed.
(* false of the code: a listing and an error carry none of these headers *)
Theorem C153_error_refuted : forall decode date fmt seek fs cwd cwdt c q,
  missing fs cwd cwdt c q -> 100 <= f_status c < 1000 -> f_path404 c = None \/ f_status c <> 404 ->
  exists r, deal decode date fmt seek fs cwd cwdt c q = Ok r /\ s_headers r = [].
Proof.
  intros decode date fmt seek fs cwd cwdt c q M V H. destruct (deal_missing decode date fmt seek _ _ _ _ _ M) as (msg & E). rewrite E. exists (FResp (f_status c) [] (BText msg)). split; [|reflexivity].
  unfold ret_error. rewrite (plain_ok _ _ V). destruct (N.eqb_spec (f_status c) 404) as [F|F]; [|reflexivity]. destruct H as [-> |H]; [reflexivity|contradiction].
Qed.
Definition hd_cfg : fcfg := FCfg (Some (txt "/srv/www")) (txt "/static") (txt "application/octet-stream") [] (Some 60) None None [] [] 404 [] false true true.
Example C153_example : asks_for ex_fs [] (txt "/") hd_cfg (get (txt "/static/sub/a.txt")) [txt "srv"; txt "www"; txt "sub"; txt "a.txt"] [9; 9; 9; 9] (Some 60) /\
  (exists r, ex_deal hd_cfg (get (txt "/static/sub/a.txt")) = Ok r /\ hget (txt "Cache-Control") r = Some (txt "max-age=60") /\ hget (txt "ETag") r = Some (txt "3c-4")) /\
  missing ex_fs [] (txt "/") hd_cfg (get (txt "/static/b.txt")).
Proof.
  split; [exists (txt "sub/a.txt"); split; [reflexivity|]; split; [reflexivity|]; split; [apply contains_percent; vm_compute; reflexivity|];
    split; [apply hide_none; reflexivity|]; split; [apply hide_none; reflexivity|]; split; [vm_compute; reflexivity|]; split; [vm_compute; reflexivity|left; reflexivity]|].
  split; [eexists; split; [vm_compute; reflexivity|]; split; vm_compute; reflexivity|].
  exists (txt "b.txt"). split; [reflexivity|]. split; [reflexivity|]. split; [apply contains_percent; vm_compute; reflexivity|]. split; [vm_compute; reflexivity|left; reflexivity].
Qed.

(* ---- C154: If-Range -------------------------------------------------------------- *)
(* RFC 7233 3.2: the validator names the current version: the entity tag, or the time of
   the last change *)
Definition current (date : text -> option N) (mt : option N) (tag v : text) : Prop :=
  v = tag \/ exists s, mt = Some s /\ date v = Some s.
(* for a file whose time of change is known and not the first second of 1970 *)
Theorem C154_resume_partial : forall decode date fmt seek fs cwd cwdt c q ns content s a b v,
  asks_for fs cwd cwdt c q ns content (Some s) -> s <> 0 -> (forall x y, seek (Some (nlen content)) x y = true) ->
  q_head q = false -> q_inm q = None -> q_ims q = None -> q_accept_ranges q = None ->
  a <= b -> b < nlen content -> b <= u64_max -> q_range q = Some (txt "bytes=" ++ show a ++ txt "-" ++ show b) -> q_if_range q = Some v ->
  exists r tag, deal decode date fmt seek fs cwd cwdt c q = Ok r /\ hget (txt "ETag") r = Some tag /\
    ((current date (Some s) tag v /\ s_status r = 206 /\ s_body r = BFile ns content (Some (a, b))) \/
     (~ current date (Some s) tag v /\ s_status r = 200 /\ s_body r = BFile ns content None /\ hget (txt "Content-Range") r = None)).
Proof.
  intros decode date fmt seek fs cwd cwdt c q ns content s a b v AF S0 SK HD I1 I2 I4 L1 L2 L3 RG IR.
  destruct (deal_asks decode date fmt seek _ _ _ _ _ _ _ _ AF) as (m & E & A). rewrite E. unfold send_file. rewrite A. unfold try_cache. rewrite I1, I2.
  unfold after_file, if_range_ok, range_wanted. rewrite IR, I4, RG. assert (CR := calc_range_all (FirstLast a b) (nlen content)). cbn [range_valid] in CR. unfold range_text in CR. rewrite CR by lia.
  unfold head_body. rewrite HD. rewrite meta_body, plain_body, !hset_body. cbn [s_body body_len secs]. rewrite SK.
  destruct (leqb v (calc_etag (Some s) (nlen content)) || ((calc_lastmodified date v =? s) && negb (s =? 0))) eqn:B.
  - eexists. exists (calc_etag (Some s) (nlen content)). split; [reflexivity|]. cbn [set_status s_status s_body hset set_body with_part].
    split; [rewrite hget_status; rewrite hget_hset_ne by discriminate; rewrite hget_body; apply hget_hset|].
    left. split; [|split; reflexivity]. apply orb_prop in B. destruct B as [B|B]; [left; apply leqb_ok; exact B|]. right. exists s. split; [reflexivity|].
    apply andb_prop in B. destruct B as (B & _). apply N.eqb_eq in B. unfold calc_lastmodified in B. destruct (date v); congruence.
  - eexists. exists (calc_etag (Some s) (nlen content)). split; [reflexivity|]. split; [apply hget_hset|]. right. split; [|split; [|split]].
    + intros [->|(s' & [= <-] & Dv)]; [rewrite leqb_refl in B; discriminate|]. apply orb_false_elim in B. destruct B as (_ & B).
      unfold calc_lastmodified in B. rewrite Dv, N.eqb_refl in B. destruct (N.eqb_spec s 0); [contradiction|discriminate].
    + rewrite meta_status, plain_status, !hset_status. reflexivity.
    + rewrite meta_body, plain_body, !hset_body. reflexivity.
    + unfold meta_headers, plain_headers. destruct (f_nocomp c), (f_cache c), (f_cors c); rewrite ?hget_hset_ne by discriminate; reflexivity.
Qed.
(* a file whose time of change cannot be read is resumed by its tag alone *)
Theorem C154_unknown_time : forall decode date fmt seek fs cwd cwdt c q ns content v,
  asks_for fs cwd cwdt c q ns content None ->
  q_head q = false -> q_inm q = None -> q_ims q = None -> q_accept_ranges q = None -> q_if_range q = Some v ->
  exists r tag, deal decode date fmt seek fs cwd cwdt c (FReq (q_path q) (q_head q) (q_accept q) None None None (Some v) None) = Ok r /\ hget (txt "ETag") r = Some tag /\
    (v <> tag -> exists r', deal decode date fmt seek fs cwd cwdt c q = Ok r' /\ s_status r' = 200 /\ s_body r' = BFile ns content None).
Proof.
  intros decode date fmt seek fs cwd cwdt c q ns content v AF HD I1 I2 I4 IR.
  assert (AF' : asks_for fs cwd cwdt c (FReq (q_path q) (q_head q) (q_accept q) None None None (Some v) None) ns content None) by exact AF.
  destruct (deal_asks decode date fmt seek _ _ _ _ _ _ _ _ AF) as (m & E & A). destruct (deal_asks decode date fmt seek _ _ _ _ _ _ _ _ AF') as (m' & E' & _). rewrite E, E'.
  unfold send_file. rewrite A. unfold try_cache. cbn [q_inm q_ims]. rewrite I1, I2. unfold after_file, if_range_ok, range_wanted, head_body. cbn [q_if_range q_range q_accept_ranges q_head].
  rewrite IR, I4, HD. cbn [secs]. exists (meta_headers fmt None (nlen content) (plain_headers c (hset (txt "Transfer-Encoding") (txt "chunked") (hset (txt "Content-Type") (content_type m') (FResp 200 [] (BFile ns content None)))))).
  exists (calc_etag None (nlen content)). split; [destruct (leqb v _ || _); reflexivity|]. split; [apply hget_hset|]. intros NE.
  destruct (leqb v (calc_etag None (nlen content))) eqn:B; [apply leqb_ok in B; contradiction|]. rewrite N.eqb_refl, andb_false_r. cbn [orb].
  eexists. split; [reflexivity|]. rewrite meta_status, meta_body, plain_status, plain_body, !hset_status, !hset_body. split; reflexivity.
Qed.
(* false of the code for a file of 1970-01-01 00:00:00: its date does not resume it *)
Theorem C154_epoch_refuted : forall decode date fmt seek fs cwd cwdt c q ns content v,
  asks_for fs cwd cwdt c q ns content (Some 0) -> date v = Some 0 -> v <> calc_etag (Some 0) (nlen content) ->
  q_head q = false -> q_inm q = None -> q_ims q = None -> q_if_range q = Some v ->
  exists r, deal decode date fmt seek fs cwd cwdt c q = Ok r /\ (q_accept_ranges q = None -> s_status r = 200 /\ s_body r = BFile ns content None).
Proof.
  intros decode date fmt seek fs cwd cwdt c q ns content v AF DV NE HD I1 I2 IR.
  destruct (deal_asks decode date fmt seek _ _ _ _ _ _ _ _ AF) as (m & E & A). rewrite E. unfold send_file. rewrite A. unfold try_cache. rewrite I1, I2.
  unfold after_file, if_range_ok, head_body. rewrite IR, HD. cbn [secs].
  destruct (leqb v (calc_etag (Some 0) (nlen content))) eqn:B; [apply leqb_ok in B; contradiction|]. rewrite N.eqb_refl. rewrite andb_false_r. cbn [orb].
  destruct (range_wanted q) eqn:W; eexists; (split; [reflexivity|]); intros AR.
  - rewrite meta_status, meta_body, plain_status, plain_body, !hset_status, !hset_body. split; reflexivity.
  - unfold range_wanted in W. rewrite AR in W. discriminate.
Qed.
(* a part the file cannot be positioned at is an error for the whole request *)
Theorem C154_unpositioned : forall decode date fmt seek fs cwd cwdt c q ns content mt a b,
  asks_for fs cwd cwdt c q ns content mt -> seek (Some (nlen content)) a b = false ->
  q_inm q = None -> q_ims q = None -> q_if_range q = None -> q_accept_ranges q = None ->
  a <= b -> b <= u64_max -> q_range q = Some (txt "bytes=" ++ show a ++ txt "-" ++ show b) ->
  deal decode date fmt seek fs cwd cwdt c q = Err tt.
Proof.
  intros decode date fmt seek fs cwd cwdt c q ns content mt a b AF SK I1 I2 I3 I4 L1 L3 RG.
  destruct (deal_asks decode date fmt seek _ _ _ _ _ _ _ _ AF) as (m & E & A). rewrite E. unfold send_file. rewrite A. unfold try_cache. rewrite I1, I2.
  unfold after_file, if_range_ok, range_wanted. rewrite I3, I4, RG. assert (CR := calc_range_all (FirstLast a b) (nlen content)). cbn [range_valid] in CR. unfold range_text in CR. rewrite CR by lia.
  rewrite meta_body, plain_body, !hset_body. cbn [s_body body_len]. rewrite SK. reflexivity.
Qed.
Definition part_of (v : text) : freq := FReq (txt "/static/sub/a.txt") false None None None None (Some v) (Some (txt "bytes=1-2")).
Example C154_example :
  (exists r, ex_deal hd_cfg (part_of (txt "3c-4")) = Ok r /\ s_status r = 206) /\ (exists r, ex_deal hd_cfg (part_of (txt "3b-4")) = Ok r /\ s_status r = 200) /\
  (exists r, deal no_decode (fun _ => Some 60) (fun _ => []) (fun _ _ _ => true) ex_fs [] (txt "/") hd_cfg (part_of (txt "a date")) = Ok r /\ s_status r = 206).
Proof. vm_compute. repeat split; eexists; split; reflexivity. Qed.

(* ---- C69: names without an extension ------------------------------------------------- *)
Lemma last_comp a f : f <> [] -> f <> txt "." -> ~ In 47 f -> List.last (comps (a ++ 47 :: f)) [] = f.
Proof.
  intros Hf Hd H1. unfold comps. rewrite split_snoc by (apply no_in; exact H1).
  assert (K : forall l, List.last (filter (fun c => negb (leqb c [] || leqb c (txt "."))) (l ++ [f])) [] = f).
  { intros l. rewrite filter_app. cbn [filter]. destruct (leqb f []) eqn:E1; [apply leqb_ok in E1; contradiction|].
    destruct (leqb f (txt ".")) eqn:E2; [apply leqb_ok in E2; contradiction|]. cbn [orb negb]. apply last_last. }
  assert (Q : forall h l, List.last l [] = f -> List.last (h :: l) [] = f).
  { intros h l G. destruct l; [cbn in G; congruence|exact G]. }
  destruct (absolute (a ++ 47 :: f)); [apply Q, K|].
  destruct (split_on 47 a) as [|z l] eqn:E; [exfalso; revert E; apply split_nonempty|]. cbn [app].
  destruct (leqb z []); [apply K|apply Q, K].
Qed.
(* f has no dot, or only one at its beginning *)
Definition bare (f : text) : Prop := name_ok f /\ (~ In 46 f \/ exists g, f = 46 :: g /\ ~ In 46 g).
Lemma extension_bare a f : bare f -> extension (a ++ 47 :: f) = [].
Proof.
  intros ((N1 & N2 & N3 & N4) & B). unfold extension. rewrite last_comp by assumption. destruct f as [|c0 f0] eqn:F; [contradiction|]. rewrite <- F in *. clear F.
  destruct (leqb f (txt "..")) eqn:E2; [apply leqb_ok in E2; congruence|]. destruct B as [B|(g & -> & B)].
  - rewrite split_on_one by (apply no_in; exact B). reflexivity.
  - rewrite split_on_cons, (split_on_one 46 g) by (apply no_in; exact B). reflexivity.
Qed.
Theorem C69_default : forall decode date fmt seek fs cwd cwdt c q ns content mt d f r,
  asks_for fs cwd cwdt c q ns content mt -> q_inm q = None -> q_ims q = None ->
  q_path q = f_prefix c ++ d ++ 47 :: f -> bare f -> lookup leqb [] (f_ext_mime c) = None ->
  deal decode date fmt seek fs cwd cwdt c q = Ok r ->
  hget (txt "Content-Type") r = Some (f_mime c ++ txt "; charset=utf-8").
Proof.
  intros decode date fmt seek fs cwd cwdt c q ns content mt d f r AF I1 I2 P Hf NX. destruct AF as (x & P' & RB & NP & X1 & X2 & R & A & AC).
  apply hide_none in X1, X2. rewrite (deal_plain date fmt seek fs cwd decode cwdt c q x ns content mt) by assumption.
  assert (Ex : 47 :: x = d ++ 47 :: f) by (apply (app_inv_head (f_prefix c)); congruence).
  rewrite Ex in *. replace (root_of cwdt c ++ d ++ 47 :: f) with ((root_of cwdt c ++ d) ++ 47 :: f) in * by (rewrite <- app_assoc; reflexivity).
  unfold by_file.
  replace (match q_accept q with Some a => find_pre fs cwd (f_pre c) a _ | None => None end) with (@None (text * list text)).
  2:{ destruct AC as [-> | ->]; [destruct (q_accept q)|]; reflexivity. }
  rewrite R. rewrite extension_bare by assumption. unfold send_file. rewrite A. unfold try_cache. rewrite I1, I2. cbn [fst].
  match goal with |- context [after_file date fmt seek c q mt (nlen content) ?x] => pose proof (after_type date fmt seek c q mt (nlen content) x) as T;
    destruct (after_file date fmt seek c q mt (nlen content) x) as [r2 ok] end.
  cbn [fst] in T. destruct ok; cbn [rbind]; [|discriminate]. intros E. injection E as <-. rewrite T.
  rewrite hget_hset_ne by discriminate. rewrite hget_hset. unfold content_type, get_mimetype. rewrite NX. reflexivity.
Qed.
Example C69_default_example : bare (txt ".bashrc") /\ bare (txt "Makefile") /\
  (exists r, deal no_decode no_date (fun _ => []) (fun _ _ _ => true) (Dir [(txt ".txt", File [1] None)]) [] (txt "/") (FCfg (Some (txt "/")) [] (txt "a/b") [] None None None [] [] 404 [] false true false) (get (txt "/.txt")) = Ok r /\
     hget (txt "Content-Type") r = Some (txt "a/b; charset=utf-8")).
Proof.
  split; [|split].
  - split; [apply name_okb_ok; reflexivity|]. right. eexists. split; [reflexivity|]. vm_compute; intuition discriminate.
  - split; [apply name_okb_ok; reflexivity|]. left. vm_compute; intuition discriminate.
  - eexists. split; vm_compute; reflexivity.
Qed.

(* ---- C70: a path that is not below the prefix ------------------------------------------ *)
Theorem C70_outside_partial : forall decode date fmt seek fs cwd cwdt c q,
  (forall x, q_path q <> f_prefix c ++ x) -> f_robots c = None \/ q_path q <> txt "/robots.txt" -> 100 <= f_status c < 1000 -> f_path404 c = None \/ f_status c <> 404 ->
  exists r, deal decode date fmt seek fs cwd cwdt c q = Ok r /\ s_status r = f_status c /\ forall ns, ~ shows r ns.
Proof.
  intros decode date fmt seek fs cwd cwdt c q NP RB V H. unfold deal.
  replace (if leqb (q_path q) (txt "/robots.txt") then f_robots c else None) with (@None text).
  2:{ destruct (leqb (q_path q) (txt "/robots.txt")) eqn:E; [|reflexivity]. apply leqb_ok in E. destruct RB as [-> |RB]; [reflexivity|contradiction]. }
  destruct (starts_with (f_prefix c) (q_path q)) eqn:S1; [apply starts_ok in S1; destruct S1 as (x & S1); destruct (NP x S1)|].
  assert (E : ret_error date fmt seek fs cwd c q (txt "unknow path") = Ok (FResp (f_status c) [] (BText (txt "unknow path")))).
  { unfold ret_error. rewrite (plain_ok _ _ V). destruct (N.eqb_spec (f_status c) 404) as [F|F]; [|reflexivity]. destruct H as [-> |H]; [reflexivity|contradiction]. }
  rewrite E. eexists. split; [reflexivity|]. split; [reflexivity|]. intros ns [(a & b & X)|(a & X)]; discriminate.
Qed.
Example C70_outside_example : (forall x, q_path (get (txt "/other/a.txt")) <> f_prefix ex_cfg ++ x) /\ exists r, ex_deal ex_cfg (get (txt "/other/a.txt")) = Ok r /\ s_status r = 404.
Proof. split; [intros x; vm_compute; discriminate|]. eexists. split; vm_compute; reflexivity. Qed.

(* ---- C155: the working directory ---------------------------------------------------- *)
Definition with_root (c : fcfg) (o : option text) : fcfg :=
  FCfg o (f_prefix c) (f_mime c) (f_ext_mime c) (f_cache c) (f_robots c) (f_path404 c) (f_hide c) (f_index c) (f_status c) (f_pre c) (f_nocomp c) (f_browse c) (f_cors c).
Theorem C155_working_directory : forall decode date fmt seek fs cwd cwdt c q, cwdt <> [] ->
  let with_dir := deal decode date fmt seek fs cwd cwdt (with_root c (Some cwdt)) q in
  deal decode date fmt seek fs cwd cwdt (with_root c None) q = with_dir /\ deal decode date fmt seek fs cwd cwdt (with_root c (Some [])) q = with_dir.
Proof. intros decode date fmt seek fs cwd cwdt c q H. destruct cwdt as [|w cwdt]; [contradiction|]. split; reflexivity. Qed.
Example C155_example : exists r, deal no_decode no_date (fun _ => []) (fun _ _ _ => true) ex_fs [txt "srv"; txt "www"] (txt "/srv/www") (with_root ex_cfg None) (get (txt "/static/index.html")) = Ok r /\
  s_body r = BFile [txt "srv"; txt "www"; txt "index.html"] [7; 7] None.
Proof. eexists. split; vm_compute; reflexivity. Qed.

(* ---- C156: encoded paths ------------------------------------------------------------ *)
Definition at_path (q : freq) (p : text) : freq := FReq p (q_head q) (q_accept q) (q_inm q) (q_ims q) (q_accept_ranges q) (q_if_range q) (q_range q).
(* a path that is decoded is answered like the path it stands for, when both begin with
   the prefix *)
Theorem C156_encoded_partial : forall decode date fmt seek fs cwd cwdt c q d x y,
  In 37 (q_path q) -> decode (q_path q) = Some d -> ~ In 37 d -> q_path q = f_prefix c ++ x -> d = f_prefix c ++ y ->
  f_robots c = None -> deal decode date fmt seek fs cwd cwdt c q = deal decode date fmt seek fs cwd cwdt c (at_path q d).
Proof.
  intros decode date fmt seek fs cwd cwdt c q d x y I D N P Q RB.
  assert (BF : forall real, by_file date fmt seek fs cwd c (at_path q d) real = by_file date fmt seek fs cwd c q real) by reflexivity.
  assert (RE : forall m, ret_error date fmt seek fs cwd c (at_path q d) m = ret_error date fmt seek fs cwd c q m) by reflexivity.
  assert (C1 : contains (txt "%") (q_path q) = true). { destruct (contains (txt "%") (q_path q)) eqn:E; [reflexivity|]. apply contains_percent in E. contradiction. }
  assert (C2 : contains (txt "%") d = false) by (apply contains_percent; exact N).
  assert (D1 : decoded decode (q_path q) = d) by (unfold decoded; rewrite C1, D; reflexivity).
  assert (D2 : decoded decode d = d) by (unfold decoded; rewrite C2; reflexivity).
  assert (S1 : starts_with (f_prefix c) (q_path q) = true) by (apply starts_ok; exists x; exact P).
  assert (S2 : starts_with (f_prefix c) d = true) by (apply starts_ok; exists y; exact Q).
  unfold deal. cbn [q_path at_path]. rewrite RB, S1, S2, D1, D2.
  replace (if leqb (q_path q) (txt "/robots.txt") then @None text else None) with (@None text) by (destruct (leqb (q_path q) (txt "/robots.txt")); reflexivity).
  replace (if leqb d (txt "/robots.txt") then @None text else None) with (@None text) by (destruct (leqb d (txt "/robots.txt")); reflexivity).
  reflexivity.
Qed.
(* a path that cannot be decoded is taken as it stands *)
Theorem C156_undecodable : forall date fmt seek fs cwd cwdt c q d1 d2, d1 (q_path q) = None -> (forall p, d2 p = Some p) ->
  deal d1 date fmt seek fs cwd cwdt c q = deal d2 date fmt seek fs cwd cwdt c q.
Proof.
  intros date fmt seek fs cwd cwdt c q d1 d2 D1 D2.
  assert (E : decoded d1 (q_path q) = decoded d2 (q_path q)) by (unfold decoded; rewrite D1, D2; reflexivity).
  unfold deal. rewrite E. reflexivity.
Qed.
(* false of the code: a path whose prefix is encoded is not below the prefix *)
Theorem C156_prefix_refuted : forall decode date fmt seek fs cwd cwdt c q d y, decode (q_path q) = Some d -> d = f_prefix c ++ y ->
  (forall x, q_path q <> f_prefix c ++ x) -> f_robots c = None -> f_path404 c = None -> 100 <= f_status c < 1000 ->
  exists r, deal decode date fmt seek fs cwd cwdt c q = Ok r /\ s_status r = f_status c /\ forall ns, ~ shows r ns.
Proof. intros decode date fmt seek fs cwd cwdt c q d y _ _ NP RB P4 V. apply C70_outside_partial; [exact NP|left; exact RB|exact V|left; exact P4]. Qed.
Definition one_decode (p : text) : option text := if leqb p (txt "/static/%73ub/a.txt") || leqb p (txt "/%73tatic/sub/a.txt") then Some (txt "/static/sub/a.txt") else None.
Definition one_deal := deal one_decode no_date (fun _ => []) (fun _ _ _ => true) ex_fs [] (txt "/").
Example C156_example :
  (exists r, one_deal ex_cfg (get (txt "/static/%73ub/a.txt")) = Ok r /\ s_body r = BFile [txt "srv"; txt "www"; txt "sub"; txt "a.txt"] [9; 9; 9; 9] None) /\
  (exists r, one_deal ex_cfg (get (txt "/%73tatic/sub/a.txt")) = Ok r /\ s_status r = 404).
Proof. vm_compute. split; eexists; split; reflexivity. Qed.

Print Assumptions C153_headers. Print Assumptions C153_error_refuted. Print Assumptions C154_resume_partial. Print Assumptions C154_unknown_time.
Print Assumptions C154_epoch_refuted. Print Assumptions C154_unpositioned. Print Assumptions C69_default. Print Assumptions C70_outside_partial.
Print Assumptions C155_working_directory. Print Assumptions C156_encoded_partial. Print Assumptions C156_undecodable. Print Assumptions C156_prefix_refuted.
