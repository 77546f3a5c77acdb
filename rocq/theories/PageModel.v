(** Model of the page that lilya shows for an error in debug mode: lilya/middleware/server_error.py:179-278 and
    lilya/middleware/styles/errors.py. *)
From Coq Require Import List NArith ZArith Bool.
From Verif Require Import PyStr.
Import ListNotations.

(** Python's html/__init__.py:12-27 [html.escape]. *)
Definition escape (s : str) : str :=
  replace (u "'") (u "&#x27;") (replace [34%N] (u "&quot;") (replace (u ">") (u "&gt;") (replace (u "<") (u "&lt;") (replace (u "&") (u "&amp;") s)))).

(** styles/errors.py:1-66 [get_css_style]. *)
Definition css : str := u "
    <style type='text/css'>
        p {
            color: #211c1c;
        }
        .container {
            border: 1px solid #B33A3A;
        }
        .margin-top-none {
            margin-top: 0;
        }
        .title {
            background-color: #B33A3A;
            color: lemonchiffon;
            padding: 12px;
            font-size: 22px;
            font-weight: bolder;
        }
        .frame-line {
            padding-left: 10px;
            font-family: monospace;
        }
        .frame-filename {
            font-family: monospace;
        }
        .center-line {
            background-color: #B33A3A;
            color: #f9f6e1;
            padding: 5px 0px 5px 5px;
        }
        .lineno {
            margin-right: 5px;
        }
        .frame-container {
            background-color: #f9f6f6;
        }
        .frame-title {
            font-weight: unset;
            padding: 10px 10px 10px 10px;
            background-color: #ffe4e4;
            color: #191f21;
            font-size: 17px;
            border: 1px solid #c7dce8;
        }
        .collapse-btn {
            float: right;
            padding: 0px 5px 1px 5px;
            border: solid 1px #96aebb;
            cursor: pointer;
        }
        .collapsed {
            display: none;
        }
        .source-code {
            font-family: courier;
            font-size: small;
            padding-bottom: 10px;
        }

    </style>
    ".

(** styles/errors.py:69-86 [get_js]. *)
Definition js : str := u "
    <script type=""text/javascript"">
        function collapse(element){
            const frameId = element.getAttribute(""data-frame-id"");
            const frame = document.getElementById(frameId);

            if (frame.classList.contains(""collapsed"")){
                element.innerHTML = ""&#8210;"";
                frame.classList.remove(""collapsed"");
            } else {
                element.innerHTML = ""+"";
                frame.classList.add(""collapsed"");
            }
        }
    </script>
    ".

(** styles/errors.py:89-100 [get_frame]. *)
Definition frame_template : str := u "
    <div class=""frame-container"">
    <p class=""frame-title"">File <span class=""frame-filename"">{frame_filename}</span>,
        line <i>{frame_lineno}</i>,
        in <b>{frame_name}</b>
        <span class=""collapse-btn"" data-frame-id=""{frame_filename}-{frame_lineno}"" onclick=""collapse(this)"">{collapse_button}</span>
        </p>
        <div id=""{frame_filename}-{frame_lineno}"" class=""source-code {collapsed}"">{code_context}</div>
    </div>
    ".

(** styles/errors.py:103-108 [get_line]. *)
Definition line_template : str := u "
    <p><span class=""frame-line"">
    <span class=""lineno"">{lineno}.</span> {line}</span></p>
    ".

(** styles/errors.py:111-116 [get_center_line]. *)
Definition center_template : str := u "
    <p class=""center-line""><span class=""frame-line center-line"">
    <span class=""lineno"">{lineno}.</span> {line}</span></p>
    ".

(** styles/errors.py:119-143 [get_template_errors]. *)
Definition page_template : str := u "
    <html>
        <head>
            <style type='text/css'>
                {styles}
            </style>
            <title>Lilya Debugger</title>
        </head>
        <body>
            <h1>HTTP 500 Server Error</h1>
            <h2>{error}</h2>
            <div class=""container"">
                <p class=""title margin-top-none"">Traceback</p>
                <div>{exc_html}</div>
            </div>
            {js}
        </body>
    </html>
    ".

(** [str.format] with keywords, of templates without escaped braces; a name without a value, which raises in Python, does
    not occur in the templates above.  The fuel is the length of the template. *)
Fixpoint fmt (n : nat) (vals : list (str * str)) (s : str) : str :=
  match n, s with
  | S n', c :: r =>
      if N.eqb c 123 then
        match split1 125 r with
        | Some (name, rest) => (match dget name vals with Some v => v | None => [] end) ++ fmt n' vals rest
        | None => c :: fmt n' vals r
        end
      else c :: fmt n' vals r
  | _, _ => []
  end.
Definition format (tpl : str) (vals : list (str * str)) : str := fmt (length tpl) vals tpl.

(** What [inspect.getinnerframes] says of a frame: the file, the line, the function, the lines around it and which of them
    is the line; without source there are no lines and no index. *)
Record frame := { f_file : str; f_line : N; f_name : str; f_context : list str; f_index : option nat }.

(** server_error.py:222-247 [format_line]. *)
Definition format_line (index : nat) (line : str) (lineno : N) (frame_index : nat) : str :=
  let escaped := replace (u " ") (u "&nbsp") (escape line) in
  let no := ((Z.of_N lineno - Z.of_nat frame_index) + Z.of_nat index)%Z in
  format (if Nat.eqb index frame_index then center_template else line_template) [(u "line", escaped); (u "lineno", decz no)].
Fixpoint format_lines (index : nat) (lines : list str) (lineno : N) (frame_index : nat) : str :=
  match lines with
  | [] => []
  | l :: ls => format_line index l lineno frame_index ++ format_lines (S index) ls lineno frame_index
  end.
(** server_error.py:249-278 [generate_frame_html]. *)
Definition frame_html (f : frame) (collapsed : bool) : str :=
  let code := format_lines 0 (f_context f) (f_line f) (match f_index f with Some i => i | None => 0 end) in
  format frame_template
    [(u "frame_filename", escape (f_file f)); (u "frame_lineno", dec (f_line f)); (u "frame_name", escape (f_name f));
     (u "code_context", code); (u "collapsed", if collapsed then u "collapsed" else []);
     (u "collapse_button", if collapsed then u "+" else u "&#8210;")].
(** server_error.py:191-198: the frames, the innermost first and alone open. *)
Fixpoint frames_html (fs : list frame) (collapsed : bool) : str :=
  match fs with [] => [] | f :: fs' => frame_html f collapsed ++ frames_html fs' true end.
(** server_error.py:179-208 [generate_html]: the name of the type of the exception, its text and the frames, outermost
    first. *)
Definition page (type_name text : str) (frames : list frame) : str :=
  format page_template
    [(u "styles", css); (u "js", js); (u "error", escape type_name ++ u ": " ++ escape text); (u "exc_html", frames_html (rev frames) false)].
