(* The page of a directory listing: src/plugins/file_server.rs:584-660 and
   src/plugins/mod.rs:19-29.
   The two constants around the title (HEAD_HTML_PRE and HEAD_HTML_AFTER,
   file_server.rs:153-182) are parameters. *)
From Coq Require Import String.
From Verif Require Import Base Text TextOps FileModel.
Open Scope N_scope.

(* plugins/mod.rs:19-29 calc_file_size *)
Definition file_size (len : N) : text :=
  if len <? 1024 then show len ++ txt "B"
  else if len <? 1024 * 1024 then show (len / 1024) ++ txt "K"
  else if len <? 1024 * 1024 * 1024 then show (len / (1024 * 1024)) ++ txt "M"
  else show (len / (1024 * 1024 * 1024)) ++ txt "G".

(* file_server.rs:614-617, 632-635 *)
Definition link_cell (l n : text) : text := txt "<td><a href=""" ++ l ++ txt """>" ++ n ++ txt "</td>".
(* file_server.rs:610-618, 638 *)
Definition folder_row (l n : text) : text :=
  txt "<tr>" ++ txt "<td><i class=""icon icon-_blank""></i></td>" ++ txt "<td class=""file-size""><code></code></td>" ++ link_cell l n ++ txt "</tr>".
(* file_server.rs:610, 619-638 *)
Definition file_row (l n : text) (len : N) : text :=
  txt "<tr>" ++ txt "<td><i class=""icon icon-_page""></i></td>" ++ txt "<td class=""file-size""><code>" ++ file_size len ++ txt "</code></td>" ++ link_cell l n ++ txt "</tr>".

Section Page.
  Context (pre after : text) (fs : node).

  (* file_server.rs:597-639: folder_binary.  Simplified: the entry is looked up by its names
     in the tree, which has no symbolic links *)
  Definition folder_part (ns : list text) (links : list (text * text)) : text :=
    List.concat (map (fun ln => match at_names fs (ns ++ [snd ln]) with Some (Dir _) => folder_row (fst ln) (snd ln) | _ => [] end) links).
  (* file_server.rs:597-639: file_binary; an entry without metadata is shown without a size *)
  Definition file_part (ns : list text) (links : list (text * text)) : text :=
    List.concat (map (fun ln =>
      match at_names fs (ns ++ [snd ln]) with
      | Some (Dir _) => []
      | Some (File content _) => file_row (fst ln) (snd ln) (nlen content)
      | None => txt "<tr>" ++ txt "<td><i class=""icon icon-_page""></i></td>" ++ txt "<td class=""file-size""><code></code></td>" ++ link_cell (fst ln) (snd ln) ++ txt "</tr>"
      end) links).
  (* file_server.rs:588-594, 640-645 *)
  Definition page (href : text) (ns : list text) (links : list (text * text)) : text :=
    pre ++ href ++ after ++ (txt "<body><h1>Index Of " ++ href ++ txt "</h1>") ++ (txt "<table>" ++ [13; 10] ++ txt "<tbody>") ++
    folder_part ns links ++ file_part ns links ++ (txt "</tbody>" ++ [13; 10] ++ txt "</table>") ++
    txt "<br><address>wengmeng <a href=""https://github.com/tickbh/wenmeng"">wenmeng</a></address>" ++ txt "</body></html>".
  (* file_server.rs:561-564 *)
  Definition href_of (decode : text -> option text) (c : fcfg) (q : freq) : option text :=
    match strip_prefix (f_prefix c) (decoded decode (q_path q)) with
    | Some h => Some (if starts_with (txt "/") h then h else txt "/" ++ h)
    | None => None
    end.
  (* file_server.rs:584-660: the text of a listing *)
  Definition page_of (decode : text -> option text) (c : fcfg) (q : freq) (r : fresp) : option text :=
    match s_body r with
    | BList ns links => match href_of decode c q with Some h => Some (page h ns links) | None => None end
    | _ => None
    end.
End Page.
