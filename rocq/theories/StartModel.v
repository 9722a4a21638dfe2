(** * Starting a provider: /repo/plainbox/impl/commands/inv_startprovider.py 34-139,
    521-532 and cmd_startprovider.py 79-98

    Simplified: paths as in InstallModel, with the components that are . left out;
    of the language of str.format there are doubled braces and names in braces
    with an optional conversion, as in the templates; a file is either executable
    or not. *)
From Coq Require Import String Ascii List Bool Arith.
From Verif Require Import ScanModel Rfc822Model IniModel ConfigModel PluginModel ProviderModel ProvdefModel InstallModel.
Import ListNotations.
Local Open Scope nat_scope.
Local Open Scope list_scope.

(** ** str.format; None is an exception *)
Inductive position := Outside | Opened | Inside (field : text) | Closed.
Fixpoint format (kw : list (text * text)) (s : position) (t : text) : option text :=
  match t with
  | [] => match s with Outside => Some [] | _ => None end
  | c :: r =>
      match s with
      | Outside =>
          if Ascii.eqb c "{" then format kw Opened r
          else if Ascii.eqb c "}" then format kw Closed r
          else option_map (cons c) (format kw Outside r)
      | Opened =>
          if Ascii.eqb c "{" then option_map (cons c) (format kw Outside r)
          else if Ascii.eqb c "}" then None
          else format kw (Inside [c]) r
      | Inside field =>
          if Ascii.eqb c "{" then None
          else if Ascii.eqb c "}" then
            match tget (rev field) kw with Some v => option_map (app v) (format kw Outside r) | None => None end
          else format kw (Inside (c :: field)) r
      | Closed => if Ascii.eqb c "}" then option_map (cons c) (format kw Outside r) else None
      end
  end.
(** repr of a text without quotes, backslashes and characters that are not
    printed, other than the newline *)
Definition APOS : ascii := "'".
Fixpoint escaped (t : text) : text :=
  match t with [] => [] | c :: r => if Ascii.eqb c NL then T "\n" ++ escaped r else c :: escaped r end.
Definition repr (t : text) : text := APOS :: escaped t ++ [APOS].

(** ** The file system, with the files that are executable *)
Record world := mk_world { w_fs : fs; w_exec : list text -> bool }.
(** A path, from the working directory *)
Definition resolve (cwd : list text) (t : text) : list text :=
  (if is_abs t then [] else cwd) ++ filter (fun c => negb (text_eqb c (T "."))) (comps t).
(** os.path.exists *)
Definition there (cwd : list text) (t : text) (w : world) : bool := exists_ (w_fs w (resolve cwd t)).
(** os.mkdir; None is OSError *)
Definition mkdir (cwd : list text) (t : text) (w : world) : option world :=
  let p := resolve cwd t in
  if is_dir (w_fs w (removelast p)) && negb (exists_ (w_fs w p)) then Some (mk_world (put p (Some Dir) (w_fs w)) (w_exec w)) else None.
(** open(t, "wt") or stream.write *)
Definition write_to (cwd : list text) (t : text) (content : text) (w : world) : option world :=
  match write_file (resolve cwd t) content (w_fs w) with Some f => Some (mk_world f (w_exec w)) | None => None end.
(** os.chmod(t, 0o775) *)
Definition chmod (cwd : list text) (t : text) (w : world) : world :=
  mk_world (w_fs w) (fun q => match below (resolve cwd t) q with Some [] => true | _ => w_exec w q end).

(** ** Things *)

(** What an invocation did: what the file system was after each call, and the end *)
Inductive ending := Completed | InTheWay (t : text) | OS_error | Format_error.
Definition run := (list world * ending)%type.
(** The last one *)
Definition final (w : world) (r : run) : world := fold_left (fun _ w' => w') (fst r) w.
Definition then_ (w : world) (r : run) (k : world -> run) : run :=
  match snd r with
  | Completed => let r' := k (final w r) in (fst r ++ fst r', snd r')
  | _ => r
  end.
Definition call (o : option world) : run := match o with Some w => ([w], Completed) | None => ([], OS_error) end.

(** 77-81, 107-108 *)
Inductive thing := Directory (name : text) | FileOf (name : text) (parent : option text) (executable : bool) (full_text : text).

(** 83-95 File.instantiate and 116-120 Directory.instantiate *)
Definition instantiate (cwd : list text) (kw : list (text * text)) (root : text) (x : thing) (w : world) : run :=
  match x with
  | Directory name =>
      match format kw Outside name with
      | None => ([], Format_error)
      | Some n =>
          let dirname := pjoin root n in
          if there cwd dirname w then ([], InTheWay dirname) else call (mkdir cwd dirname w)
      end
  | FileOf name parent executable full_text =>
      match format kw Outside name with
      | None => ([], Format_error)
      | Some n =>
          let filename := match parent with Some (c :: p) => pjoin (pjoin root (c :: p)) n | _ => pjoin root n end in
          if there cwd filename w then ([], InTheWay filename)
          else
            then_ w (call (write_to cwd filename [] w)) (fun w1 =>
              match format kw Outside full_text with
              | None => ([], Format_error)
              | Some content =>
                  then_ w1 (call (write_to cwd filename content w1)) (fun w2 =>
                    if executable then ([chmod cwd filename w2], Completed) else ([], Completed))
              end)
      end
  end.
Fixpoint instantiate_all (cwd : list text) (kw : list (text * text)) (root : text) (l : list thing) (w : world) : run :=
  match l with
  | [] => ([], Completed)
  | x :: r => then_ w (instantiate cwd kw root x w) (instantiate_all cwd kw root r)
  end.
(** 133-137 Skeleton.instantiate *)
Definition instantiate_skeleton (cwd : list text) (kw : list (text * text)) (root name : text) (things : list thing) (w : world) : run :=
  then_ w (instantiate cwd kw root (Directory name) w) (fun w1 =>
    match format kw Outside name with
    | None => ([], Format_error)
    | Some n => instantiate_all cwd kw (pjoin root n) things w1
    end).

(** ** The command *)

(** re.sub("[.:]", "_", name) *)
Definition domain_of (name : text) : text :=
  map (fun c => if Ascii.eqb c "." || Ascii.eqb c ":" then "_"%char else c) name.
Definition keywords (name : text) : list (text * text) :=
  [(T "name", name); (T "name!r", repr name); (T "gettext_domain", domain_of name)].
(** 34-45 IQN, in the parsing of arguments, and 526-532 StartProviderInvocation.run:
    None is an error about the arguments *)
Definition start_provider (cwd : list text) (things : list thing) (name : text) (w : world) : option run :=
  if iqn_valid name then Some (instantiate_skeleton cwd (keywords name) (T ".") name things w) else None.

(** ** The skeletons: the texts are those after inspect.cleandoc *)

(** 145-167 *)
Definition t_manage_py : text := T "#!/usr/bin/env python3
from plainbox.provider_manager import setup, N_

# You can inject other stuff here but please don't go overboard.
#
# In particular, if you need comprehensive compilation support to get
# your bin/ populated then please try to discuss that with us in the
# upstream project IRC channel #checkbox on irc.freenode.net.

# NOTE: one thing that you could do here, that makes a lot of sense,
# is to compute version somehow. This may vary depending on the
# context of your provider. Future version of PlainBox will offer git,
# bzr and mercurial integration using the versiontools library
# (optional)

setup(
    name={name!r},
    version=""1.0"",
    description=N_(""The {name} provider""),
    gettext_domain=""{gettext_domain}"",
)".
(** 191-238 *)
Definition t_README_md : text := T "Skeleton for a new PlainBox provider
====================================

This is a skeleton PlainBox provider that was generated using
``plainbox startprovider ...``.

It is just the starting point, there is nothing here of value to you
yet. If you know how this works then just remove this file along with
other example content and start working on your new tests,
otherwise, read on.

Inside the ``jobs/`` directory you will find several files that define
a number of ""jobs"" (more than one job per file actually). A job, in
PlainBox parlance, is the smallest piece of executable test code. Each
job has a name and a number of other attributes.

Jobs can be arranged in test plans - lists that specify which jobs to
run. You can create as many test plans as you need, referring to
arbitrary subsets of your jobs.

Then there are the ``bin/`` and ``data/`` directories. Those are
entirely for custom content you may need. You can put arbitrary
executables in ``bin/``, and those will be available to your job
definitions. Similarly you can keep any data your jobs might need
inside the ``data/`` directory. Referring to that directory at runtime
is a little bit trickier but one of the examples generated in this
skeleton shows how to do that.

Lastly there is the ``manage.py`` script. It requires python3 to run.
It depends on the python3-plainbox Debian package (or just the
PlainBox 0.5 upstream package) installed. This script can automate and
simplify a number of tasks that you will want to do as a test
developer.

Run ``./manage.py --help`` to see what sub-commands are available. You
can additionally pass ``--help`` to each sub command, for example
``./manage.py install --help`` will print the description of the
install command and all the arguments it supports.

That is it for now. You should check out the official documentation
for test authors at
http://plainbox.readthedocs.org/en/latest/author/index.html

If you find bugs or would like to see additional features developed
you can file bugs on the parent project page:
https://bugs.launchpad.net/checkbox/+filebug".
(** 242-290 *)
Definition t_units_examples_trivial_pxu : text := T "# Two example jobs, both using the 'shell' ""plugin"". See the
# documentation for examples of other test cases including
# interactive tests, ""resource"" tests and a few other types.
#
# The summary and description keys are prefixed with _
# to indicate that they can be translated.
#
# http://plainbox.rtfd.org/en/latest/author/jobs.html
unit: category
id: examples/trivial
_name: Examples/trivial

unit: test plan
id: trivial
_name: Examples - trivial
_description: Jobs using only the basic functionality
estimated_duration: 0.02
include:
    examples/trivial/.*

unit: job
id: examples/trivial/always-pass
category_id: examples/trivial
_summary: A test that always passes
_description:
   A test that always passes
   .
   This simple test will always succeed, assuming your
   platform has a 'true' command that returns 0.
plugin: shell
estimated_duration: 0.01
command: true
flags: preserve-locale

unit: job
id: examples/trivial/always-fail
category_id: examples/trivial
_summary: A test that always fails
_description:
   A test that always fails
   .
   This simple test will always fail, assuming your
   platform has a 'false' command that returns 1.
plugin: shell
estimated_duration: 0.01
command: false
flags: preserve-locale".
(** 292-353 *)
Definition t_units_examples_normal_pxu : text := T "unit: test plan
id: normal
_name: Examples - normal
_description: Jobs using provider data nad binaries
estimated_duration: 0.03
include:
    examples/normal/.*

unit: category
id: examples/normal
_name: Examples/normal

unit: job
id: examples/normal/data-access
category_id: examples/normal
_summary: Example job using provider-specific data
_description:
   This test illustrates that custom data can be accessed using
   the $PLAINBOX_PROVIDER_DATA environment variable. It points to
   the absolute path of the data directory of the provider.
plugin: shell
estimated_duration: 0.01
command:
   test ""$(cat $PLAINBOX_PROVIDER_DATA/example.dat)"" = ""DATA""
flags: preserve-locale

unit: job
id: examples/normal/bin-access
category_id: examples/normal
_summary: Example job using provider-specific executable
_description:
   This test illustrates that custom executables can be accessed
   directly, if placed in the bin/ directory of the provider.
   .
   Those are made available in the PATH, at runtime. This job
   succeeds because the custom-executable script returns 0.
plugin: shell
estimated_duration: 0.01
command: custom-executable
flags: preserve-locale

unit: job
id: examples/normal/info-collection
category_id: examples/normal
_summary: Example job attaching command output to results
_description:
   This test illustrates that output of a job may be collected
   for analysis using the plugin type ``attachment``
   .
   Attachment jobs may fail and behave almost the same as shell
   jobs (exit status decides their outcome)
   .
   The output is saved but, depending on how tests are how results
   are handled, may not be displayed. You can save attachments
   using, for example, the JSON test result exporter, like this:
   ``plainbox run -f json -p with-attachments``
plugin: attachment
estimated_duration: 0.01
command: cat /proc/cpuinfo
flags: preserve-locale".
(** 355-469 *)
Definition t_units_examples_intermediate_pxu : text := T "unit: test plan
id: intermediate
_name: Examples - intermediate
_description: Jobs using advanced provider functionality
estimated_duration: 0.03
include:
    examples/intermediate/.*

unit: category
id: examples/intermediate
_name: Examples/intermediate

unit: job
id: examples/intermediate/dependency-target
category_id: examples/intermediate
_summary: Example job that some other job depends on
_description:
   This test illustrates how a job can be a dependency of another
   job. The dependency graph can be arbitrarily complex, it just
   cannot have any cycles. PlainBox will discover various problems
   related to dependencies, including cyclic dependencies and
   jobs that are depended upon, without a definition.
   .
   This job simply ""passes"" all the time but realistic examples
   may include multi-stage manipulation (detect a device, set it
   up, perform some automatic and some manual tests and summarise
   the results, for example)
plugin: shell
command: true
flags: preserve-locale
estimated_duration: 0.01

unit: job
id: examples/intermediate/dependency-source
category_id: examples/intermediate
_summary: Example job that depends on another job
_description:
   This test illustrates how a job can depend on another job.
   .
   If you run this example unmodified (selecting just this job)
   you will see that PlainBox will automatically run the
   'dependency-target' job before attempting to run this one.
   This will happen, even if you explicitly order the jobs
   incorrectly.
   .
   If you edit the 'dependency-target' job to run 'false' instead
   of 'true' and rerun this job you will see that it automatically
   fails without being started. This is because of a rule which
   automatically fails any job that has a failed dependency.
plugin: shell
command: true
flags: preserve-locale
depends: examples/intermediate/dependency-target
estimated_duration: 0.01

# TODO: this should be possible:
# name: examples/intermediate/detected-device
# resource-object: examples.intermediate.detected_device
unit: job
id: detected_device
category_id: examples/intermediate
_summary: Example job producing structured resource data
_description:
   This job illustrates that not all jobs are designed to be a
   ""test"". PlainBox has a system of the so-called resources.
   .
   Technically a resource is a list of records with named fields.
   Any program that prints RFC822-like output can be considered a
   valid resource. Here a hypothetical resource program has
   detected (fake) two devices which are represented as records
   with the field ``device``.
   .
   Resources are ran on demand, their output parsed and stored.
   All resources are made available to jobs that use resource
   programs. See the next job for an example of how that can be
   useful.
plugin: resource
command:
   echo ""type: WEBCAM""
   echo """"
   echo ""type: WIFI""
flags: preserve-locale
estimated_duration: 0.03

unit: job
id: examples/intermediate/test-webcam
category_id: examples/intermediate
_summary: Example job depending on structured resource
_purpose:
   This test illustrates two concepts. It is the first test that
   uses manual jobs (totally not automated test type). It also
   uses a resource dependency, via a resource program, to limit
   this test only on a machine that has a hypothetical webcam.
_steps:
   If you run this example unmodified (selecting just this job)
   you will see that PlainBox will automatically run the
   'detected_device' job before attempting to run this one. This
   will happen, even if you explicitly order the jobs incorrectly.
_verification:
   If you edit the resource job to not print information about the
   hypothetical WEBCAM device (just remove that line) and rerun
   this job you will see that it automatically gets skipped
   without being started. This is because of a rule which
   automatically skips any job that has unmet requirement.
   .
   Resources are documented in detail here:
   http://plainbox.rtfd.org/en/latest/search.html?q=resources
   Please look at the ``Resources`` chapter there (it may move so
   a search link is more reliable)
plugin: manual
requires:
    detected_device.type == ""WEBCAM""
estimated_duration: 30".
(** 473-479 *)
Definition t_po_POTFILES_in : text := T "[encoding: UTF-8]
[type: gettext/rfc822deb] jobs/examples-trivial.txt
[type: gettext/rfc822deb] jobs/examples-normal.txt
[type: gettext/rfc822deb] jobs/examples-intermediate.txt
manage.py".
(** 483-493 *)
Definition t_data_README_md : text := T "Container for arbitrary data needed by tests
============================================

You can refer to files from this directory, in your scripts, using
the $PLAINBOX\_PROVIDER\_DATA environment variable. See the job
examples/data-access for details.

You should delete this file as anything here is automatically
distributed in the source tarball or installed.".
(** 495-495 *)
Definition t_data_example_dat : text := T "DATA".
(** 499-509 *)
Definition t_bin_README_md : text := T "Container for arbitrary executables needed by tests
===================================================

You can execute files from this directory without any additional
setup, they are automatically added to the PATH of the executing
job examples/bin-access for details.

You should delete this file as anything here is automatically
distributed in the source tarball or installed.".
(** 511-514 *)
Definition t_bin_custom_executable : text := T "#!/bin/sh
echo ""Custom script executed""".
(** 516-516 *)
Definition t_gitignore : text := T "dist/*.tar.gz
build/mo/*".
(** 518-518 *)
Definition t_bzrignore : text := T "dist/*.tar.gz
build/mo/*".

(** 140-167 EmptyProviderSkeleton, --empty *)
Definition empty_skeleton : list thing :=
  [FileOf (T "manage.py") None true t_manage_py].
(** 170-518 ProviderSkeleton *)
Definition skeleton : list thing :=
  empty_skeleton ++
  [Directory (T "units");
   Directory (T "data");
   Directory (T "bin");
   Directory (T "po");
   FileOf (T "README.md") None false t_README_md;
   FileOf (T "examples-trivial.pxu") (Some (T "units")) false t_units_examples_trivial_pxu;
   FileOf (T "examples-normal.pxu") (Some (T "units")) false t_units_examples_normal_pxu;
   FileOf (T "examples-intermediate.pxu") (Some (T "units")) false t_units_examples_intermediate_pxu;
   FileOf (T "POTFILES.in") (Some (T "po")) false t_po_POTFILES_in;
   FileOf (T "README.md") (Some (T "data")) false t_data_README_md;
   FileOf (T "example.dat") (Some (T "data")) false t_data_example_dat;
   FileOf (T "README.md") (Some (T "bin")) false t_bin_README_md;
   FileOf (T "custom-executable") (Some (T "bin")) true t_bin_custom_executable;
   FileOf (T ".gitignore") None false t_gitignore;
   FileOf (T ".bzrignore") None false t_bzrignore].
