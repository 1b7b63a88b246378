(** Model of the routing of the two servers: internal/suggest/api/app.go:70-78 and
    internal/spellchecker/api/app.go:60-64, with the router they use (gorilla/mux v1.7.1, from
    its published source: Router.ServeHTTP, cleanPath, routeRegexp with StrictSlash).
    Definitions only.

    A request is its method and its decoded path (r.URL.Path: percent signs are resolved
    before the router sees it).  Not modelled: the logging and CORS wrappers (app.go:80-84). *)
From Coq Require Import String.
From Verif Require Import Base GoMap.
Local Open Scope Z_scope.
Local Notation length := List.length.

(* strings.Split(s, "/") and strings.Join(l, "/"); 47 is the slash, 46 the point *)
Fixpoint split (s : bytes) : list bytes :=
  match s with
  | [] => [[]]
  | c :: t => if c =? 47 then [] :: split t else match split t with x :: r => (c :: x) :: r | [] => [[c]] end
  end.
Fixpoint join (l : list bytes) : bytes :=
  match l with [] => [] | [x] => x | x :: t => x ++ 47 :: join t end.
(* path.Clean of a path that begins with a slash: empty elements and "." go, ".." takes the
   element before it away *)
Fixpoint resolve (acc : list bytes) (l : list bytes) : list bytes :=
  match l with
  | [] => rev acc
  | x :: t =>
      if beqb x [] || beqb x [46] then resolve acc t
      else if beqb x [46; 46] then resolve (tl acc) t
      else resolve (x :: acc) t
  end.
Definition Clean (p : bytes) : bytes := 47 :: join (resolve [] (split p)).
(* mux.go: cleanPath *)
Definition ends_slash (p : bytes) : bool := match rev p with c :: _ => c =? 47 | [] => false end.
Definition cleanPath (p : bytes) : bytes :=
  match p with
  | [] => [47]
  | c :: _ =>
      let p' := if c =? 47 then p else 47 :: p in
      let np := Clean p' in
      if ends_slash p' && negb (beqb np [47]) then np ++ [47] else np
  end.

(* regexp.go: newRouteRegexp.  A template is a list of path elements, each a text or a variable
   ({name}: [^/]+), and ends with a slash; with StrictSlash the pattern ends with [/]?$, and a
   request without the slash is redirected to the path with it *)
Inductive element := Lit (s : bytes) | Var.
Fixpoint match_elements (t : list element) (l : list bytes) : option (list bytes) :=
  match t, l with
  | [], [] => Some []
  | Lit s :: t', x :: l' => if beqb s x then match_elements t' l' else None
  | Var :: t', x :: l' => if beqb x [] then None else match match_elements t' l' with Some v => Some (x :: v) | None => None end
  | _, _ => None
  end.
(* the elements of a path that begins with a slash, without the empty one after a final slash *)
Definition elements (p : bytes) : list bytes :=
  match split p with
  | [] :: l => match rev l with [] :: r => rev r | _ => l end
  | l => l
  end.
Inductive method := GET | POST | Other.
Definition method_eqb (a b : method) : bool := match a, b with GET, GET | POST, POST => true | _, _ => false end.
Inductive handler := Home | Suggest | Autocomplete | Dictionaries | Reindex | Predict.
Record route := mkRoute { rt_method : method; rt_template : list element; rt_handler : handler }.
Inductive routed :=
| Handled (h : handler) (vars : list bytes)
| Redirect (path : bytes)       (* 301 *)
| NotFound                      (* 404 *)
| NotAllowed.                   (* 405 *)
(* mux.go: Router.Match, route.go: Route.Match: the first route whose path and method match *)
Fixpoint match_routes (routes : list route) (m : method) (p : bytes) (mismatch : bool) : routed :=
  match routes with
  | [] => if mismatch then NotAllowed else NotFound
  | r :: rest =>
      match match_elements (rt_template r) (elements p) with
      | Some vars =>
          if method_eqb (rt_method r) m
          then if ends_slash p then Handled (rt_handler r) vars else Redirect (p ++ [47])
          else match_routes rest m p true
      | None => match_routes rest m p mismatch
      end
  end.
(* mux.go: Router.ServeHTTP *)
Definition serve (routes : list route) (m : method) (p : bytes) : routed :=
  if beqb (cleanPath p) p then match_routes routes m p false else Redirect (cleanPath p).

(* internal/suggest/api/app.go:73-77 *)
Definition suggest_routes : list route :=
  [ mkRoute GET [] Home;
    mkRoute GET [Lit (bs "autocomplete"); Var; Var] Autocomplete;
    mkRoute GET [Lit (bs "suggest"); Var; Var] Suggest;
    mkRoute GET [Lit (bs "dict"); Lit (bs "list")] Dictionaries;
    mkRoute POST [Lit (bs "internal"); Lit (bs "reindex")] Reindex ].
(* internal/spellchecker/api/app.go:63-64 *)
Definition spellchecker_routes : list route :=
  [ mkRoute GET [] Home; mkRoute GET [Lit (bs "predict"); Var] Predict ].
