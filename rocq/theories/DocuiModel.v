(** Model of the documentation pages: lilya/contrib/openapi/docs.py (the texts of the pages) and the routes that
    lilya/contrib/openapi/config.py:381-501 [enable] adds for them. The document itself is in DocModel. *)
From Verif Require Import PyStr.

(** config.py:25-340, docs.py: the settings of one page, as texts. Simplification: the parameters of Swagger UI and the
    settings of its oauth client are given as [serializer.dumps] wrote them. *)
Record look := { title : str; css : str; icon : str; js : str; params : str; init_oauth : option str; fonts : bool }.

(** docs.py:15-71 [get_swagger_ui_html]. *)
Definition swagger_html (c : look) (address : str) (redirect : option str) : str :=
  u "
    <!DOCTYPE html>
    <html>
    <head>
    <link type=""text/css"" rel=""stylesheet"" href=""" ++ css c ++ u """>
    <link rel=""shortcut icon"" href=""" ++ icon c ++ u """>
    <title>" ++ title c ++ u "</title>
    </head>
    <body>
    <div id=""swagger-ui"">
    </div>
    <script src=""" ++ js c ++ u """></script>
    <!-- `SwaggerUIBundle` is now available on the page -->
    <script>
    const ui = SwaggerUIBundle({
        url: '" ++ address ++ u "',
    " ++ params c ++
  match redirect with
  | Some r => u "oauth2RedirectUrl: window.location.origin + '" ++ r ++ u "',"
  | None => []
  end ++ u "
    presets: [
        SwaggerUIBundle.presets.apis,
        SwaggerUIBundle.SwaggerUIStandalonePreset
        ],
    })" ++
  match init_oauth c with
  | Some o => u "
        ui.initOAuth(" ++ o ++ u ")
        "
  | None => []
  end ++ u "
    </script>
    </body>
    </html>
    ".

(** docs.py:74-116 [get_redoc_html]. *)
Definition redoc_html (c : look) (address : str) : str :=
  u "
    <!DOCTYPE html>
    <html>
    <head>
    <title>" ++ title c ++ u "</title>
    <!-- needed for adaptive design -->
    <meta charset=""utf-8""/>
    <meta name=""viewport"" content=""width=device-width, initial-scale=1"">
    " ++ (if fonts c then u "
    <link href=""https://fonts.googleapis.com/css?family=Montserrat:300,400,700|Roboto:300,400,700"" rel=""stylesheet"">
    " else []) ++ u "
    <link rel=""shortcut icon"" href=""" ++ icon c ++ u """>
    <!--
    ReDoc doesn't change outer page styles
    -->
    <style>
      body {
        margin: 0;
        padding: 0;
      }
    </style>
    </head>
    <body>
    <noscript>
        ReDoc requires Javascript to function. Please enable it to browse the documentation.
    </noscript>
    <redoc spec-url=""" ++ address ++ u """></redoc>
    <script src=""" ++ js c ++ u """> </script>
    </body>
    </html>
    ".

(** docs.py:119-153 [get_stoplight_html]. *)
Definition stoplight_html (c : look) (address : str) : str :=
  u "
    <!DOCTYPE html>
    <html>
        <head>
            <title>" ++ title c ++ u "</title>
            <!-- needed for adaptive design -->
            <meta name=""viewport"" content=""width=device-width, initial-scale=1, shrink-to-fit=no"">
            <link rel=""shortcut icon"" href=""" ++ icon c ++ u """>
            <link rel=""stylesheet"" href=""" ++ css c ++ u """>
            <script src=""" ++ js c ++ u """ crossorigin></script>
            <style>body { margin: 0; padding: 0 }</style>
    " ++ u "
        <body>
            <noscript>
                Stoplight requires Javascript to function. Please enable it to browse the documentation.
            </noscript>
            <elements-api
                apiDescriptionUrl=""" ++ address ++ u """
                router=""hash""
                layout=""sidebar""
            />
        </body>
    </html>
    ".

(** docs.py:239-272 [get_rapidoc_ui_html]. *)
Definition rapidoc_html (c : look) (address : str) : str :=
  u "
    <!DOCTYPE html>
    <html>
        <head>
            <title>" ++ title c ++ u "</title>
            <link rel=""shortcut icon"" href=""" ++ icon c ++ u """>
            <meta charset=""utf-8""/>
            <meta name=""viewport"" content=""width=device-width, initial-scale=1"">
            <script src=""" ++ js c ++ u """ crossorigin></script>
            <style>body { margin: 0; padding: 0 }</style>
    " ++ u "
        <body>
            <noscript>
                Rapidoc requires Javascript to function. Please enable it to browse the documentation.
            </noscript>
            <rapi-doc spec-url=""" ++ address ++ u """ />
        </body>
    </html>
    ".

(** config.py: the addresses; [[]] is None or the empty text, both false. *)
Record urls := { openapi_url : str; docs_url : str; redirect_url : str; redoc_url : str; stoplight_url : str; rapidoc_url : str }.
Inductive page := Swagger | Redoc | Stoplight | Rapidoc.
(** What a route answers: the document, a page, or the fixed text of docs.py:156-236. *)
Inductive target := Document | Page (p : page) | Redirected.

Definition given (s : str) : bool := match s with [] => false | _ => true end.
(** config.py:381-501 [enable]: the routes added, in order. *)
Definition enable (c : urls) : list (str * target) :=
  (if given (openapi_url c) then [(openapi_url c, Document)] else []) ++
  (if given (openapi_url c) && given (docs_url c) then [(docs_url c, Page Swagger)] else []) ++
  (if given (redirect_url c) then [(redirect_url c, Redirected)] else []) ++
  (if given (openapi_url c) && given (redoc_url c) then [(redoc_url c, Page Redoc)] else []) ++
  (if given (openapi_url c) && given (stoplight_url c) then [(stoplight_url c, Page Stoplight)] else []) ++
  (if given (openapi_url c) && given (rapidoc_url c) then [(rapidoc_url c, Page Rapidoc)] else []).

(** config.py:404-423, 450-459, 471-482, 490-499: the handler of a page, for a request with the root path [root]. *)
Definition html (c : urls) (k : look) (p : page) (root : str) : str :=
  let root := rstrip_by (N.eqb 47) root in
  let address := root ++ openapi_url c in
  match p with
  | Swagger => swagger_html k address (if given (redirect_url c) then Some (root ++ redirect_url c) else None)
  | Redoc => redoc_html k address
  | Stoplight => stoplight_html k address
  | Rapidoc => rapidoc_html k address
  end.
