(* The types of files, by the ends of their names. *)
From Coq Require Import String.
From Verif Require Import Base Text TextOps.
Open Scope N_scope.

(* registered or common types with the extensions of their files *)
Definition kinds : list (string * list string) :=
  [("text/html", ["html"; "htm"; "shtml"]); ("text/css", ["css"]); ("text/xml", ["xml"]); ("text/plain", ["txt"; "md"; "yaml"; "yml"; "toml"]);
   ("application/javascript", ["js"]); ("application/json", ["json"]); ("application/zip", ["zip"]); ("application/x-rar-compressed", ["rar"]);
   ("application/pdf", ["pdf"]); ("application/rtf", ["rtf"]); ("application/msword", ["doc"]); ("application/vnd.ms-excel", ["xls"]);
   ("application/vnd.ms-powerpoint", ["ppt"]); ("application/x-shockwave-flash", ["swf"]);
   ("audio/midi", ["mid"; "midi"; "kar"]); ("audio/mpeg", ["mp3"]); ("audio/ogg", ["ogg"]); ("audio/m4a", ["m4a"]); ("audio/x-realaudio", ["ra"]);
   ("image/gif", ["gif"]); ("image/jpeg", ["jpeg"; "jpg"]); ("image/png", ["png"]); ("image/tiff", ["tif"; "tiff"]); ("image/webp", ["webp"]);
   ("image/svg+xml", ["svg"; "svgz"]); ("image/x-icon", ["ico"]); ("image/x-ms-bmp", ["bmp"]); ("image/x-jng", ["jng"]); ("image/vnd.wap.wbmp", ["wbmp"]);
   ("video/3gpp", ["3gpp"; "3gp"]); ("video/mp4", ["mp4"]); ("video/mpeg", ["mpeg"; "mpg"]); ("video/quicktime", ["mov"]); ("video/webm", ["webm"]);
   ("video/x-flv", ["flv"]); ("video/x-m4v", ["m4v"]); ("video/x-ms-wmv", ["wmv"]); ("video/x-msvideo", ["avi"])]%string.
(* files ending in .e are of type t *)
Definition is_kind (t e : string) : Prop := exists es, In (t, es) kinds /\ In e es.
(* a type and a subtype *)
Definition media_type (m : text) : Prop := exists a b, m = a ++ 47 :: b /\ a <> [] /\ b <> [] /\ ~ In 47 a /\ ~ In 47 b.
