(** Model of src/falcon_constants.go and of the parameter lookups of falcon.go.
    Generated from the Go source.  The float64 fields sigma and sigmin are given
    exactly, as a pair (m, e) meaning m * 2^e: the binary64 number nearest to
    the decimal literal in the comment. *)
From Verif Require Import GoBase.

(** falcon_constants.go:4-6 *)
Definition HeadLen : Z := 1.
Definition SaltLen : Z := 40.

(** falcon_constants.go:41-47 *)
Record PublicParameters := {
  p_n : Z; p_sigma : Z * Z; p_sigmin : Z * Z; p_sigbound : Z; p_sigbytelen : Z
}.

(** falcon_constants.go:51-57: sigma = 144.81253976308423, sigmin = 1.1165085072329104 *)
Definition params_2 : PublicParameters :=
  {| p_n := 2; p_sigma := (5095138282153135, -45); p_sigmin := (5028307297130124, -52);
     p_sigbound := 101498; p_sigbytelen := 44 |}.
(** falcon_constants.go:59-65: sigma = 146.83798833523608, sigmin = 1.1321247692325274 *)
Definition params_4 : PublicParameters :=
  {| p_n := 4; p_sigma := (5166402418362519, -45); p_sigmin := (5098636688852519, -52);
     p_sigbound := 208714; p_sigbytelen := 47 |}.
(** falcon_constants.go:67-73: sigma = 148.83587593064718, sigmin = 1.147528535373367 *)
Definition params_8 : PublicParameters :=
  {| p_n := 8; p_sigma := (5236696838911125, -45); p_sigmin := (5168009084304507, -52);
     p_sigbound := 428865; p_sigbytelen := 52 |}.
(** falcon_constants.go:75-81: sigma = 151.78340713845503, sigmin = 1.170254078853483 *)
Definition params_16 : PublicParameters :=
  {| p_n := 16; p_sigma := (5340403873670081, -45); p_sigmin := (5270355833453349, -52);
     p_sigbound := 892039; p_sigbytelen := 63 |}.
(** falcon_constants.go:83-89: sigma = 154.6747794602761, sigmin = 1.1925466358390344 *)
Definition params_32 : PublicParameters :=
  {| p_n := 32; p_sigma := (5442134993288384, -45); p_sigmin := (5370752584786614, -52);
     p_sigbound := 1852696; p_sigbytelen := 82 |}.
(** falcon_constants.go:91-97: sigma = 157.51308555044122, sigmin = 1.2144300507766141 *)
Definition params_64 : PublicParameters :=
  {| p_n := 64; p_sigma := (5541999010866751, -45); p_sigmin := (5469306724145092, -52);
     p_sigbound := 3842630; p_sigbytelen := 122 |}.
(** falcon_constants.go:99-105: sigma = 160.30114421975344, sigmin = 1.235926056771981 *)
Definition params_128 : PublicParameters :=
  {| p_n := 128; p_sigma := (5640095104493326, -45); p_sigmin := (5566116128735780, -52);
     p_sigbound := 7959734; p_sigbytelen := 200 |}.
(** falcon_constants.go:107-113: sigma = 163.04153322607107, sigmin = 1.2570545284063217 *)
Definition params_256 : PublicParameters :=
  {| p_n := 256; p_sigma := (5736513970959750, -45); p_sigmin := (5661270305715105, -52);
     p_sigbound := 16468416; p_sigbytelen := 356 |}.
(** falcon_constants.go:115-121: sigma = 165.7366171829776, sigmin = 1.2778336969128337 *)
Definition params_512 : PublicParameters :=
  {| p_n := 512; p_sigma := (5831338807710191, -45); p_sigmin := (5754851361258101, -52);
     p_sigbound := 34034726; p_sigbytelen := 666 |}.
(** falcon_constants.go:123-129: sigma = 168.38857144654395, sigmin = 1.298280334344292 *)
Definition params_1024 : PublicParameters :=
  {| p_n := 1024; p_sigma := (5924646153282074, -45); p_sigmin := (5846934829975396, -52);
     p_sigbound := 70265242; p_sigbytelen := 1280 |}.

(** falcon_constants.go:49-130 *)
Definition ParamSets (n : Z) : option PublicParameters :=
  if n =? 2 then Some params_2 else
  if n =? 4 then Some params_4 else
  if n =? 8 then Some params_8 else
  if n =? 16 then Some params_16 else
  if n =? 32 then Some params_32 else
  if n =? 64 then Some params_64 else
  if n =? 128 then Some params_128 else
  if n =? 256 then Some params_256 else
  if n =? 512 then Some params_512 else
  if n =? 1024 then Some params_1024 else None.

(** falcon_constants.go:22-33 *)
Definition LOGN (n : Z) : option Z :=
  if n =? 2 then Some 1 else
  if n =? 4 then Some 2 else
  if n =? 8 then Some 3 else
  if n =? 16 then Some 4 else
  if n =? 32 then Some 5 else
  if n =? 64 then Some 6 else
  if n =? 128 then Some 7 else
  if n =? 256 then Some 8 else
  if n =? 512 then Some 9 else
  if n =? 1024 then Some 10 else None.

(** the zero value of the struct *)
Definition zero_params : PublicParameters :=
  {| p_n := 0; p_sigma := (0, 0); p_sigmin := (0, 0); p_sigbound := 0; p_sigbytelen := 0 |}.

(** falcon.go:23-26 *)
Definition isValidDegree (n : Z) : bool :=
  match ParamSets n with Some _ => true | None => false end.

(** falcon.go:28-33 *)
Definition GetParamSet (n : Z) : PublicParameters :=
  if negb (isValidDegree n) then zero_params
  else match ParamSets n with Some p => p | None => zero_params end.
