(* What a page of a directory is supposed to show. *)
From Coq Require Import String.
From Verif Require Import Base Text TextOps FileModel FileSpec.
Open Scope N_scope.

(* one line of the table: a folder, or a file with its length *)
Inductive row := Folder (name link : text) | Plain (name link : text) (len : N).
Definition row_name (r : row) : text := match r with Folder n _ | Plain n _ _ => n end.
Definition row_link (r : row) : text := match r with Folder _ l | Plain _ l _ => l end.
Definition is_folder (r : row) : Prop := match r with Folder _ _ => True | _ => False end.
(* units and their letters: B K M G *)
Definition units : list (N * N) := [(1, 66); (1024, 75); (1024 ^ 2, 77); (1024 ^ 3, 71)].
(* a length written as a whole number of the largest unit that fits, rounded down *)
Definition size_shown (len : N) (t : text) : Prop :=
  exists k u letter, In (u, letter) units /\ t = show k ++ [letter] /\ k * u <= len < (k + 1) * u /\
    (letter <> 66 -> 1 <= k) /\ (letter <> 71 -> k < 1024).
(* the line of the page for a row *)
Definition shown_row (r : row) (t : text) : Prop :=
  match r with
  | Folder n l => t = txt "<tr><td><i class=""icon icon-_blank""></i></td><td class=""file-size""><code></code></td><td><a href=""" ++ l ++ txt """>" ++ n ++ txt "</td></tr>"
  | Plain n l len => exists s, size_shown len s /\
      t = txt "<tr><td><i class=""icon icon-_page""></i></td><td class=""file-size""><code>" ++ s ++ txt "</code></td><td><a href=""" ++ l ++ txt """>" ++ n ++ txt "</td></tr>"
  end.
(* t is the page titled href with these rows *)
Definition shown_page (pre after href : text) (rows : list row) (t : text) : Prop :=
  exists lines, Forall2 shown_row rows lines /\
    t = pre ++ href ++ after ++ txt "<body><h1>Index Of " ++ href ++ txt "</h1><table>" ++ [13; 10] ++ txt "<tbody>" ++ List.concat lines ++
        txt "</tbody>" ++ [13; 10] ++ txt "</table><br><address>wengmeng <a href=""https://github.com/tickbh/wenmeng"">wenmeng</a></address></body></html>".
(* no character of markup: quote, less-than *)
Definition no_markup (s : text) : Prop := ~ In 34 s /\ ~ In 60 s.
