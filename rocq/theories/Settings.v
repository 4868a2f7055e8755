(** Model of the settings structs in /repo/src/codegen/fs-creator.h and of
    FsCreator::Configure, /repo/src/codegen/fs-creator.cpp 21-94 *)

From Coq Require Import ZArith NArith List String Ascii Bool.
From Verif Require Import Base Formatter.
Import ListNotations.
Open Scope string_scope.

(** FsDescriptor_t, fs-creator.h 7-23.  Of the [dir] members only core_h.dir is read. *)
Record fsdesc := {
  f_libdir : string; f_usrdir : string; f_incdir : string; f_confdir : string;
  f_utildir : string;
  f_dir : string;
  f_coreh : string; f_coreh_path : string;
  f_corec : string; f_corec_path : string;
  f_utilh : string; f_utilh_path : string;
  f_utilc : string; f_utilc_path : string;
  f_fmonh : string; f_fmonh_path : string;
  f_fmonc : string; f_fmonc_path : string
}.

(** GenDescriptor_t, fs-creator.h 25-57 *)
Record gendesc := {
  n_orig : string; n_drv : string; n_DRV : string;
  n_usebits : string; n_usestruct : string; n_usemon : string; n_usemono : string;
  n_usesigfloat : string; n_useroll : string; n_usecsm : string;
  n_verhi : string; n_verlow : string;
  n_drvinfo : string; n_cominfo : string;
  n_hi : Z; n_low : Z;
  n_nofmon : bool; n_noinc : bool; n_noconfig : bool
}.

Record settings := { st_f : fsdesc; st_g : gendesc }.

(** snprintf into _tmpb, fs-creator.cpp 6-8 *)
Definition tmpb (s : string) : string := cut 1024 s.

(** FsCreator::Configure; the three flags are set by CoderApp::GenerateCode, app.cpp 142-144 *)
Definition configure (drv out common driver : string) (hi low : Z)
           (noconfig noinc nofmon : bool) : settings :=
  let D := str_toupper drv in
  let d := str_tolower drv in
  let lib := out ++ "/lib" in
  let usr := out ++ "/usr" in
  let inc := out ++ "/inc" in
  let conf := out ++ "/conf" in
  let butl := out ++ "/butl" in
  {| st_f :=
       {| f_libdir := lib; f_usrdir := usr; f_incdir := inc; f_confdir := conf;
          f_utildir := butl; f_dir := out;
          f_coreh := d ++ ".h"; f_coreh_path := lib ++ "/" ++ (d ++ ".h");
          f_corec := d ++ ".c"; f_corec_path := lib ++ "/" ++ (d ++ ".c");
          f_utilh := d ++ "-binutil" ++ ".h"; f_utilh_path := butl ++ "/" ++ (d ++ "-binutil" ++ ".h");
          f_utilc := d ++ "-binutil" ++ ".c"; f_utilc_path := butl ++ "/" ++ (d ++ "-binutil" ++ ".c");
          f_fmonh := d ++ "-fmon.h"; f_fmonh_path := lib ++ "/" ++ (d ++ "-fmon.h");
          f_fmonc := d ++ "-fmon.c"; f_fmonc_path := usr ++ "/" ++ (d ++ "-fmon.c") |};
     st_g :=
       {| n_orig := drv; n_drv := d; n_DRV := D;
          n_usebits := tmpb (D ++ "_USE_BITS_SIGNAL");
          n_usestruct := tmpb (D ++ "_USE_CANSTRUCT");
          n_usemon := tmpb (D ++ "_USE_DIAG_MONITORS");
          n_usemono := tmpb (D ++ "_USE_MONO_FMON");
          n_usesigfloat := tmpb (D ++ "_USE_SIGFLOAT");
          n_useroll := tmpb (D ++ "_AUTO_ROLL");
          n_usecsm := tmpb (D ++ "_AUTO_CSM");
          n_verhi := tmpb ("VER_" ++ D ++ "_MAJ");
          n_verlow := tmpb ("VER_" ++ D ++ "_MIN");
          n_drvinfo := driver; n_cominfo := common; n_hi := hi; n_low := low;
          n_nofmon := nofmon; n_noinc := noinc; n_noconfig := noconfig |} |}.

(** the settings of one node's utilities, app.cpp 193-207 *)
Definition node_settings (s : settings) (node drv : string) : settings :=
  let util := node ++ "_" ++ drv in
  let d := str_tolower util in
  let D := str_toupper d in
  let h := str_tolower (d ++ "-binutil.h") in
  let c := str_tolower (d ++ "-binutil.c") in
  let f := st_f s in
  let g := st_g s in
  {| st_f :=
       {| f_libdir := f_libdir f; f_usrdir := f_usrdir f; f_incdir := f_incdir f;
          f_confdir := f_confdir f; f_utildir := f_utildir f; f_dir := f_dir f;
          f_coreh := f_coreh f; f_coreh_path := f_coreh_path f;
          f_corec := f_corec f; f_corec_path := f_corec_path f;
          f_utilh := h; f_utilh_path := f_utildir f ++ "/" ++ h;
          f_utilc := c; f_utilc_path := f_utildir f ++ "/" ++ c;
          f_fmonh := f_fmonh f; f_fmonh_path := f_fmonh_path f;
          f_fmonc := f_fmonc f; f_fmonc_path := f_fmonc_path f |};
     st_g :=
       {| n_orig := n_orig g; n_drv := d; n_DRV := D;
          n_usebits := n_usebits g; n_usestruct := n_usestruct g; n_usemon := n_usemon g;
          n_usemono := n_usemono g; n_usesigfloat := n_usesigfloat g; n_useroll := n_useroll g;
          n_usecsm := n_usecsm g; n_verhi := n_verhi g; n_verlow := n_verlow g;
          n_drvinfo := n_drvinfo g; n_cominfo := n_cominfo g; n_hi := n_hi g; n_low := n_low g;
          n_nofmon := n_nofmon g; n_noinc := n_noinc g; n_noconfig := n_noconfig g |} |}.
