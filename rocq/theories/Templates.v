(** The format strings of the code generator, extracted from the sources by
    tools/templates.py: one definition per call, named after file and line
    (pi: creation/process_items.cpp, xm: creation/xml/process_items_xml.cpp,
    xa: creation/xml/process_items_xml_attrib.cpp, ini: creation/ini/process_items_ini.cpp).
    The literals are as in the source, with the quote doubled. *)
From Coq Require Import String List.
From Verif Require Import Fmt.
Import ListNotations.
Local Open Scope string_scope.

(** *** creation/process_items.cpp *)

(* format stdout [app_timestamp] *)
Definition pi_19 : template := Eval vm_compute in compile
 "//\n// Automatically generated using stfx\n// Do not directly edit this file, use stfx to re-create this file.\n//\n// License : MIT License\n//\n// {}\n".
(* println stdout [] *)
Definition pi_32 : template := Eval vm_compute in compile
 "\nStarting to create output.".
(* println stdout [] *)
Definition pi_38 : template := Eval vm_compute in compile
 "Not generating enum information at this point".
(* println stdout [] *)
Definition pi_46 : template := Eval vm_compute in compile
 "Not generating struct information at this point".
(* println stdout [out_pathfilename_cpp] *)
Definition pi_79 : template := Eval vm_compute in compile
 "Opened enum .cpp file :\t\t{}".
(* println stdout [out_pathfilename_h] *)
Definition pi_84 : template := Eval vm_compute in compile
 "Opened enum .h file :\t\t{}".
(* println f_cpp [out_filename_cpp] *)
Definition pi_87 : template := Eval vm_compute in compile
 "// {}".
(* println f_cpp [m_stfx_info] *)
Definition pi_88 : template := Eval vm_compute in compile
 "{}".
(* println f_cpp [out_filename_h] *)
Definition pi_89 : template := Eval vm_compute in compile
 "#include \""{}\""\n".
(* println f_cpp [] *)
Definition pi_90 : template := Eval vm_compute in compile
 "#include <string>\n#include <map>\n".
(* println f_cpp [in_filename] *)
Definition pi_93 : template := Eval vm_compute in compile
 "#include \""{}\""".
(* println f_cpp [] *)
Definition pi_95 : template := Eval vm_compute in compile
 "".
(* println f_h [out_filename_h] *)
Definition pi_97 : template := Eval vm_compute in compile
 "// {}".
(* println f_h [m_stfx_info] *)
Definition pi_98 : template := Eval vm_compute in compile
 "{}".
(* println f_h [] *)
Definition pi_99 : template := Eval vm_compute in compile
 "#pragma once\n".
(* println f_h [] *)
Definition pi_100 : template := Eval vm_compute in compile
 "#include <string>".
(* println f_h [] *)
Definition pi_101 : template := Eval vm_compute in compile
 "#include <fmt/format.h>\n".
(* println f_h [in_filename] *)
Definition pi_104 : template := Eval vm_compute in compile
 "#include \""{}\""".
(* println f_h [] *)
Definition pi_106 : template := Eval vm_compute in compile
 "".
(* println f_h [] *)
Definition pi_107 : template := Eval vm_compute in compile
 "namespace stfx\n\t{{".
(* println f_h [] *)
Definition pi_115 : template := Eval vm_compute in compile
 "\t}};".
(* println stdout [out_filename_h] *)
Definition pi_129 : template := Eval vm_compute in compile
 "\nERROR : Failed to open output file {}".
(* println stdout [out_filename_cpp] *)
Definition pi_135 : template := Eval vm_compute in compile
 "\nERROR : Failed to open output file {}".
(* println out_file_h [the_enum.name] *)
Definition pi_144 : template := Eval vm_compute in compile
 "\tconst std::string s_from_e({0} e);".
(* println out_file_cpp [the_enum.name] *)
Definition pi_146 : template := Eval vm_compute in compile
 "const std::string stfx::s_from_e({0} e)\n\t{{".
(* println out_file_cpp [the_enum.name] *)
Definition pi_148 : template := Eval vm_compute in compile
 "\tstd::map < {0}, std::string > {0}_to_string =\n\t\t{{".
(* println out_file_cpp [the_enum.name, ent.name] *)
Definition pi_154 : template := Eval vm_compute in compile
 "\t\t\t{{ {0}::{1}, \""{1}\"" }},".
(* println out_file_cpp [ent.name] *)
Definition pi_158 : template := Eval vm_compute in compile
 "\t\t\t{{ {0}, \""{0}\"" }},".
(* println out_file_cpp [] *)
Definition pi_161 : template := Eval vm_compute in compile
 "\t\t}};".
(* println out_file_cpp [the_enum.name] *)
Definition pi_162 : template := Eval vm_compute in compile
 "\tstd::string rv = ({0}_to_string.find(e) != {0}_to_string.end()) ? {0}_to_string[e] : std::to_string(int(e));".
(* println out_file_cpp [] *)
Definition pi_163 : template := Eval vm_compute in compile
 "\treturn rv;\n\t}};\n".
(* println out_file_h [the_enum.name] *)
Definition pi_167 : template := Eval vm_compute in compile
 "\tbool s_to_e(std::string s, {} &e);".
(* println out_file_cpp [the_enum.name] *)
Definition pi_169 : template := Eval vm_compute in compile
 "bool stfx::s_to_e(std::string s, {} &e)\n\t{{".
(* println out_file_cpp [] *)
Definition pi_170 : template := Eval vm_compute in compile
 "\tbool rv {{false}};\n".
(* println out_file_cpp [the_enum.name] *)
Definition pi_172 : template := Eval vm_compute in compile
 "\tstd::map < std::string, {0} > string_to_{0} =\n\t\t{{".
(* println out_file_cpp [the_enum.name, ent.name] *)
Definition pi_178 : template := Eval vm_compute in compile
 "\t\t\t{{ \""{1}\"", {0}::{1} }},".
(* println out_file_cpp [ent.name] *)
Definition pi_182 : template := Eval vm_compute in compile
 "\t\t\t{{ \""{0}\"", {0} }},".
(* println out_file_cpp [] *)
Definition pi_185 : template := Eval vm_compute in compile
 "\t\t}};".
(* println out_file_cpp [the_enum.name] *)
Definition pi_186 : template := Eval vm_compute in compile
 "\tif(string_to_{0}.find(s) != string_to_{0}.end())\n\t\t{{\n\t\te = string_to_{0}[s];\n\t\trv = true;\n\t\t}}\n\telse\n\t\t{{\n\t\ttry\n\t\t\t{{\n\t\t\tint i = std::stoi(s);\t\t// just in case the value of enum has been given\n\t\t\te = {0}(i);\n\t\t\t}}\n\t\tcatch (std::exception &)\n\t\t\t{{\n\t\t\t// unexpected string, will just be ignored (for now!)... This *COULD* throw an exception .. \n\t\t\t}}\n\t\t// note rv NOT set to true ! \n\t\t}}".
(* println out_file_cpp [] *)
Definition pi_206 : template := Eval vm_compute in compile
 "\treturn rv;\n\t}};\n".
(* println out_file_h [the_enum.name] *)
Definition pi_212 : template := Eval vm_compute in compile
 "\ntemplate <> struct fmt::formatter < {0} > : formatter<string_view>\n\t{{\n\ttemplate <typename FormatContext>\n\tauto format({0} c, FormatContext& ctx) const\n\t\t{{\n\t\tstd::string str = stfx::s_from_e(c);\n\t\tstring_view name = str;\n\t\treturn formatter<string_view>::format(name, ctx);\n\t\t}}\n\t}};".

(** *** creation/xml/process_items_xml.cpp *)

(* println stdout [out_pathfilename_cpp] *)
Definition xm_42 : template := Eval vm_compute in compile
 "Opened xml struct .cpp file :\t{}".
(* println stdout [out_pathfilename_h] *)
Definition xm_47 : template := Eval vm_compute in compile
 "Opened xml struct .h file :\t{}".
(* println f_cpp [out_filename_cpp] *)
Definition xm_50 : template := Eval vm_compute in compile
 "// {}".
(* println f_cpp [m_stfx_info] *)
Definition xm_51 : template := Eval vm_compute in compile
 "{}".
(* println f_cpp [out_filename_h] *)
Definition xm_52 : template := Eval vm_compute in compile
 "#include \""{}\""\n".
(* println f_cpp [] *)
Definition xm_53 : template := Eval vm_compute in compile
 "#include <string>\n#include <map>\n#include <stdexcept>".
(* println f_cpp [] *)
Definition xm_56 : template := Eval vm_compute in compile
 "#include <tinyxml2.h>\n#include <tixml2ex.h>\n".
(* println f_cpp [] *)
Definition xm_60 : template := Eval vm_compute in compile
 "// not including blank enum file".
(* println f_cpp [enums_filename_h] *)
Definition xm_64 : template := Eval vm_compute in compile
 "#include \""{}\""".
(* println f_cpp [in_filename] *)
Definition xm_68 : template := Eval vm_compute in compile
 "#include \""{}\""".
(* println f_h [out_filename_h] *)
Definition xm_71 : template := Eval vm_compute in compile
 "// {0}".
(* println f_h [m_stfx_info] *)
Definition xm_72 : template := Eval vm_compute in compile
 "{}".
(* println f_h [] *)
Definition xm_74 : template := Eval vm_compute in compile
 "#pragma once\n\n#include <string>\n#include <tinyxml2.h>\n".
(* println f_h [in_filename] *)
Definition xm_81 : template := Eval vm_compute in compile
 "#include \""{}\""".
(* println f_h [] *)
Definition xm_83 : template := Eval vm_compute in compile
 "".
(* println f_h [reader_class_name] *)
Definition xm_87 : template := Eval vm_compute in compile
 "class {0}\n\t{{\n\tpublic:\n\t\t{0}();".
(* println f_cpp [reader_class_name] *)
Definition xm_93 : template := Eval vm_compute in compile
 "\n{0}::{0}()\n\t{{\n\t}}\n".
(* println f_h [s.name] *)
Definition xm_104 : template := Eval vm_compute in compile
 "\t\tvirtual bool read_from_file(std::string const &filename, {} &struct_to_fill);".
(* println f_cpp [reader_class_name, s.name] *)
Definition xm_106 : template := Eval vm_compute in compile
 "bool {0}::read_from_file(std::string const &filename, {1} &struct_to_fill)\n\t{{\n\tbool rv{{}};\n\ttinyxml2::XMLError er;\n\ttinyxml2::XMLDocument doc;\n\n\ter = doc.LoadFile(filename.c_str());\n\tif (er == tinyxml2::XML_SUCCESS)\n\t\t{{\n\t\ttinyxml2::XMLElement* el = doc.RootElement();\n\t\trv = do_{1}(el, &struct_to_fill);\n\t\t}}\n\treturn rv;\n\t}}\n".
(* println f_h [] *)
Definition xm_124 : template := Eval vm_compute in compile
 "\tprotected:".
(* println f_h [] *)
Definition xm_132 : template := Eval vm_compute in compile
 "\t}};\n".
(* println f_cpp [] *)
Definition xm_134 : template := Eval vm_compute in compile
 "\n".
(* println f_h [writer_class_name, reader_class_name] *)
Definition xm_140 : template := Eval vm_compute in compile
 "class {0} : public {1}\n\t{{\n\tprivate:\n\t\tbool m_delta_only {{}};\n\tpublic:\n\t\t{0}(bool delta_only = true);".
(* println f_cpp [writer_class_name, reader_class_name] *)
Definition xm_149 : template := Eval vm_compute in compile
 "\n{0}::{0}(bool delta_only) : {1}()\n{{\n\tm_delta_only = delta_only;\n}}\n".
(* println f_h [s.name] *)
Definition xm_162 : template := Eval vm_compute in compile
 "\t\tvirtual bool write_to_file(std::string const &filename, {} &struct_to_read);".
(* println f_cpp [writer_class_name, s.name] *)
Definition xm_164 : template := Eval vm_compute in compile
 "bool {0}::write_to_file(std::string const &filename, {1} &struct_to_read)\n\t{{\n\tbool rv{{}};\n\ttinyxml2::XMLError er;\n\ttinyxml2::XMLDocument doc_w;\n\tauto ch = doc_w.NewElement(\""{1}\"");\n\tdoc_w.InsertFirstChild(ch);\n\ttinyxml2::XMLElement * el = doc_w.RootElement();\n\tdo_wr_{1}(el, &struct_to_read);\n\ter = doc_w.SaveFile(filename.c_str());\n\trv = (er == tinyxml2::XML_SUCCESS);\n\treturn rv;\n\t}}\n".
(* println f_h [] *)
Definition xm_181 : template := Eval vm_compute in compile
 "\tprotected:".
(* println f_h [] *)
Definition xm_189 : template := Eval vm_compute in compile
 "\t}};".
(* println f_cpp [] *)
Definition xm_191 : template := Eval vm_compute in compile
 "\n".
(* println stdout [out_filename_h] *)
Definition xm_199 : template := Eval vm_compute in compile
 "\nERROR : Failed to open output file {}".
(* println stdout [out_filename_cpp] *)
Definition xm_205 : template := Eval vm_compute in compile
 "\nERROR : Failed to open output file {}".
(* println out_file_h [s.name] *)
Definition xm_217 : template := Eval vm_compute in compile
 "\t\tbool do_{0}(tinyxml2::XMLElement *el, {0} *data);".
(* println out_file_cpp [class_name, s.name] *)
Definition xm_219 : template := Eval vm_compute in compile
 "bool {0}::do_{1}(tinyxml2::XMLElement *el, {1} *data)\n\t{{\n\ttinyxml2::XMLElement *ch_el;\n".
(* println out_file_cpp [] *)
Definition xm_225 : template := Eval vm_compute in compile
 "\tbool rv = true;".
(* println out_file_cpp [sim.name] *)
Definition xm_232 : template := Eval vm_compute in compile
 "\tch_el = find_element(el, \""{0}\"");\n\tif(ch_el != nullptr)\n\t\tch_el->QueryBoolText(&data->{0});".
(* println out_file_cpp [sim.name] *)
Definition xm_239 : template := Eval vm_compute in compile
 "\tch_el = find_element(el, \""{0}\"");\n\tif(ch_el != nullptr)\n\t\tch_el->QueryIntText(&data->{0});".
(* println out_file_cpp [sim.name] *)
Definition xm_246 : template := Eval vm_compute in compile
 "\tch_el = find_element(el, \""{0}\"");\n\tif(ch_el != nullptr)\n\t\tch_el->QueryUnsignedText(&data->{0});".
(* println out_file_cpp [sim.name] *)
Definition xm_253 : template := Eval vm_compute in compile
 "\tch_el = find_element(el, \""{0}\"");\n\tif(ch_el != nullptr)\n\t\tch_el->QueryFloatText(&data->{0});".
(* println out_file_cpp [sim.name] *)
Definition xm_260 : template := Eval vm_compute in compile
 "\tch_el = find_element(el, \""{0}\"");\n\tif(ch_el != nullptr)\n\t\tch_el->QueryDoubleText(&data->{0});".
(* println out_file_cpp [sim.name] *)
Definition xm_267 : template := Eval vm_compute in compile
 "\tch_el = find_element(el, \""{0}\"");\n\tif(ch_el != nullptr)\n\t\t{{\n\t\tconst char *pt = ch_el->GetText();\n\t\tif(pt != nullptr)\n\t\t\tdata->{0} = pt;\n\t\t}}".
(* println out_file_cpp [sim.name] *)
Definition xm_278 : template := Eval vm_compute in compile
 "\tch_el = find_element(el, \""{0}\"");\n\tif(ch_el != nullptr)\n\t\t{{\n\t\tint i;\n\t\tch_el->QueryIntText(&i);\n\t\tdata->{0} = (short)i;\n\t\t}}".
(* println out_file_cpp [sim.name] *)
Definition xm_289 : template := Eval vm_compute in compile
 "\tch_el = find_element(el, \""{0}\"");\n\tif(ch_el != nullptr)\n\t\t{{\n\t\tunsigned int ui;\n\t\tch_el->QueryUnsignedText(&ui);\n\t\tdata->{0} = (unsigned short)ui;\n\t\t}}".
(* println out_file_cpp [sim.name] *)
Definition xm_300 : template := Eval vm_compute in compile
 "\tch_el = find_element(el, \""{0}\"");\n\tif(ch_el != nullptr)\n\t\t{{\n\t\tint i;\n\t\tch_el->QueryIntText(&i);\n\t\tdata->{0} = (long)i;\n\t\t}}".
(* println out_file_cpp [sim.name] *)
Definition xm_311 : template := Eval vm_compute in compile
 "\tch_el = find_element(el, \""{0}\"");\n\tif(ch_el != nullptr)\n\t\t{{\n\t\tunsigned int ui;\n\t\tch_el->QueryUnsignedText(&ui);\n\t\tdata->{0} = (unsigned long)ui;\n\t\t}}".
(* println out_file_cpp [sim.name] *)
Definition xm_322 : template := Eval vm_compute in compile
 "\t// WARNING FAILED TO PROCESS {}".
(* println stdout [sim.name] *)
Definition xm_323 : template := Eval vm_compute in compile
 "WARNING : FAILED TO PROCESS {}".
(* println out_file_cpp [co.name] *)
Definition xm_351 : template := Eval vm_compute in compile
 "\tch_el = find_element(el, \""{0}\"");\n\tif(ch_el != nullptr)\n\t\t{{\n\t\tconst char *pt = ch_el->GetText();\n\t\tif(pt != nullptr)\n\t\t\tstfx::s_to_e(pt, data->{0});\n\t\t}}".
(* println out_file_cpp [co.name, co.type_name] *)
Definition xm_361 : template := Eval vm_compute in compile
 "\tch_el = el->FirstChildElement(\""{0}\"");\n\tif (ch_el != nullptr)\n\t\t{{\n\t\tdo_{1}(ch_el, &data->{0});\n\t\t}}".
(* println out_file_cpp [co.name, co.type_name] *)
Definition xm_370 : template := Eval vm_compute in compile
 "\tch_el = el->FirstChildElement(\""{0}\"");\n\tif (ch_el != nullptr)\n\t\t{{\n\t\tfor (auto item : ch_el)\n\t\t\t{{\n\t\t\t{1} s;\n\t\t\tif (do_{1}(item, &s) == true)\n\t\t\t\t{{\n\t\t\t\tdata->{0}.push_back(s);\n\t\t\t\t}}\n\t\t\t}}\n\t\t}}".
(* println out_file_cpp [co.name] *)
Definition xm_385 : template := Eval vm_compute in compile
 "// enum_or_struct_E {}\t NEEDS TO BE FIXED!!".
(* println stdout [co.name] *)
Definition xm_386 : template := Eval vm_compute in compile
 "// enum_or_struct_E {}\t NEEDS TO BE FIXED!!".
(* println out_file_cpp [co.name] *)
Definition xm_390 : template := Eval vm_compute in compile
 "\t// WARNING FAILED TO PROCESS {}".
(* println stdout [co.name] *)
Definition xm_391 : template := Eval vm_compute in compile
 "\t// WARNING FAILED TO PROCESS {}".
(* println out_file_cpp [] *)
Definition xm_396 : template := Eval vm_compute in compile
 "\treturn rv;\n\t}};\n".
(* println out_file_h [s.name] *)
Definition xm_410 : template := Eval vm_compute in compile
 "\t\tbool do_wr_{0}(tinyxml2::XMLElement *el, {0} *data);".
(* println out_file_cpp [class_name, s.name] *)
Definition xm_412 : template := Eval vm_compute in compile
 "bool {0}::do_wr_{1}(tinyxml2::XMLElement *el, {1} *data)\n\t{{\n\ttinyxml2::XMLElement *ch_el;\n".
(* println out_file_cpp [] *)
Definition xm_417 : template := Eval vm_compute in compile
 "\tbool rv = true;".
(* println out_file_cpp [s.name] *)
Definition xm_420 : template := Eval vm_compute in compile
 "\t{0} default_data;".
(* println out_file_cpp [sim.name] *)
Definition xm_437 : template := Eval vm_compute in compile
 "\tch_el = el->InsertNewChildElement(\""{0}\"");\n\tch_el->SetText(data->{0});".
(* println out_file_cpp [sim.name] *)
Definition xm_444 : template := Eval vm_compute in compile
 "\tif(m_delta_only == false || data->{0} != default_data.{0})\n\t\t{{\n\t\tch_el = el->InsertNewChildElement(\""{0}\"");\n\t\tch_el->SetText(data->{0});\n\t\t}}".
(* println out_file_cpp [sim.name] *)
Definition xm_456 : template := Eval vm_compute in compile
 "\tch_el = el->InsertNewChildElement(\""{0}\"");\n\tch_el->SetText(data->{0}.c_str());".
(* println out_file_cpp [sim.name] *)
Definition xm_463 : template := Eval vm_compute in compile
 "\tif(m_delta_only == false || data->{0} != default_data.{0})\n\t\t{{\n\t\tch_el = el->InsertNewChildElement(\""{0}\"");\n\t\tch_el->SetText(data->{0}.c_str());\n\t\t}}".
(* println out_file_cpp [sim.name] *)
Definition xm_475 : template := Eval vm_compute in compile
 "\tch_el = el->InsertNewChildElement(\""{0}\"");\n\tch_el->SetText((unsigned)data->{0});".
(* println out_file_cpp [sim.name] *)
Definition xm_482 : template := Eval vm_compute in compile
 "\tif(m_delta_only == false || data->{0} != default_data.{0})\n\t\t{{\n\t\tch_el = el->InsertNewChildElement(\""{0}\"");\n\t\tch_el->SetText((unsigned)data->{0});\n\t\t}}".
(* println out_file_cpp [sim.name] *)
Definition xm_493 : template := Eval vm_compute in compile
 "\t// WARNING FAILED TO PROCESS {}\n".
(* println stdout [sim.name] *)
Definition xm_494 : template := Eval vm_compute in compile
 "WARNING : FAILED TO PROCESS {}".
(* println out_file_cpp [co.name] *)
Definition xm_523 : template := Eval vm_compute in compile
 "\tch_el = el->InsertNewChildElement(\""{0}\"");\n\tch_el->SetText(stfx::s_from_e(data->{0}).c_str());".
(* println out_file_cpp [co.name] *)
Definition xm_530 : template := Eval vm_compute in compile
 "\tif(m_delta_only == false || data->{0} != default_data.{0})\n\t\t{{\n\t\tch_el = el->InsertNewChildElement(\""{0}\"");\n\t\tch_el->SetText(stfx::s_from_e(data->{0}).c_str());\n\t\t}}".
(* println out_file_cpp [co.name, co.type_name] *)
Definition xm_540 : template := Eval vm_compute in compile
 "\tch_el = el->InsertNewChildElement(\""{0}\"");\n\tif (ch_el != nullptr)\n\t\t{{\n\t\tdo_wr_{1}(ch_el, &data->{0});\n\t\t}}".
(* println out_file_cpp [co.name, co.type_name] *)
Definition xm_549 : template := Eval vm_compute in compile
 "\tch_el = el->InsertNewChildElement(\""{0}\"");\n\tif (ch_el != nullptr)\n\t\t{{\n\t\tfor ({1} itr : data->{0})\n\t\t\t{{\n\t\t\ttinyxml2::XMLElement *ch_ch_el = ch_el->InsertNewChildElement(\""{1}\"");\n\t\t\tdo_wr_{1}(ch_ch_el, &itr);\n\t\t\t}}\n\t\t}}".
(* println out_file_cpp [co.name] *)
Definition xm_562 : template := Eval vm_compute in compile
 "// enum_or_struct_E {}\t NEEDS TO BE FIXED!!".
(* println stdout [co.name] *)
Definition xm_563 : template := Eval vm_compute in compile
 "// enum_or_struct_E {}\t NEEDS TO BE FIXED!!".
(* println out_file_cpp [co.name] *)
Definition xm_567 : template := Eval vm_compute in compile
 "\t// WARNING FAILED TO PROCESS {}".
(* println stdout [co.name] *)
Definition xm_568 : template := Eval vm_compute in compile
 "\t// WARNING FAILED TO PROCESS {}".
(* println out_file_cpp [] *)
Definition xm_573 : template := Eval vm_compute in compile
 "\treturn rv;\n\t}};\n".

(** *** creation/xml/process_items_xml_attrib.cpp *)

(* println out_file_h [s.name] *)
Definition xa_20 : template := Eval vm_compute in compile
 "\t\tbool do_{0}(tinyxml2::XMLElement *el, {0} *data);".
(* println out_file_cpp [class_name, s.name] *)
Definition xa_22 : template := Eval vm_compute in compile
 "bool {0}::do_{1}(tinyxml2::XMLElement *el, {1} *data)\n\t{{".
(* println out_file_cpp [] *)
Definition xa_26 : template := Eval vm_compute in compile
 "\tbool rv = true;".
(* println out_file_cpp [sim.name] *)
Definition xa_37 : template := Eval vm_compute in compile
 "\tel->QueryAttribute(\""{0}\"", &data->{0});".
(* println out_file_cpp [sim.name] *)
Definition xa_40 : template := Eval vm_compute in compile
 "\t\t{{\n\t\tconst char *pt;\n\t\tif (tinyxml2::XML_SUCCESS == el->QueryAttribute(\""{0}\"", &pt))\n\t\t\tdata->{0} = pt;\n\t\t}}".
(* println out_file_cpp [sim.name] *)
Definition xa_48 : template := Eval vm_compute in compile
 "\t{{ int i; el->QueryIntAttribute(\""{0}\"", &i); data->{0} = short(i); }}".
(* println out_file_cpp [sim.name] *)
Definition xa_51 : template := Eval vm_compute in compile
 "\t{{ unsigned int i; el->QueryUnsignedAttribute(\""{0}\"", &i); data->{0} = unsigned short(i); }}".
(* println out_file_cpp [sim.name] *)
Definition xa_54 : template := Eval vm_compute in compile
 "\t{{ int i; el->QueryIntAttribute(\""{0}\"", &i); data->{0} = long(i); }}".
(* println out_file_cpp [sim.name] *)
Definition xa_57 : template := Eval vm_compute in compile
 "\t{{ unsigned int i; el->QueryUnsignedAttribute(\""{0}\"", &i); data->{0} = unsigned long(i); }}".
(* println out_file_cpp [sim.name] *)
Definition xa_60 : template := Eval vm_compute in compile
 "\t// WARNING FAILED TO PROCESS {}".
(* println stdout [sim.name] *)
Definition xa_61 : template := Eval vm_compute in compile
 "WARNING : FAILED TO PROCESS {}".
(* println out_file_cpp [] *)
Definition xa_83 : template := Eval vm_compute in compile
 "\ttinyxml2::XMLElement *ch_el;".
(* println out_file_cpp [co.name] *)
Definition xa_92 : template := Eval vm_compute in compile
 "\t\t{{\n\t\tconst char *pt;\n\t\tif (tinyxml2::XML_SUCCESS == el->QueryAttribute(\""{0}\"", &pt))\n\t\t\tstfx::s_to_e(pt, data->{0});\n\t\t}}".
(* println out_file_cpp [co.name, co.type_name] *)
Definition xa_100 : template := Eval vm_compute in compile
 "\tch_el = el->FirstChildElement(\""{0}\"");\n\tif (ch_el != nullptr)\n\t\t{{\n\t\tdo_{1}(ch_el, &data->{0});\n\t\t}}".
(* println out_file_cpp [co.name, co.type_name] *)
Definition xa_108 : template := Eval vm_compute in compile
 "\tch_el = el->FirstChildElement(\""{0}\"");\n\tif (ch_el != nullptr)\n\t\t{{\n\t\tfor (auto item : ch_el)\n\t\t\t{{\n\t\t\t{1} s;\n\t\t\tif (do_{1}(item, &s) == true)\n\t\t\t\t{{\n\t\t\t\tdata->{0}.push_back(s);\n\t\t\t\t}}\n\t\t\t}}\n\t\t}}".
(* println out_file_cpp [co.name] *)
Definition xa_123 : template := Eval vm_compute in compile
 "// enum_or_struct_E {}\t NEEDS TO BE FIXED!!".
(* println stdout [co.name] *)
Definition xa_124 : template := Eval vm_compute in compile
 "// enum_or_struct_E {}\t NEEDS TO BE FIXED!!".
(* println out_file_cpp [co.name] *)
Definition xa_128 : template := Eval vm_compute in compile
 "\t// WARNING FAILED TO PROCESS {}".
(* println stdout [co.name] *)
Definition xa_129 : template := Eval vm_compute in compile
 "\t// WARNING FAILED TO PROCESS {}".
(* println out_file_cpp [] *)
Definition xa_134 : template := Eval vm_compute in compile
 "\treturn rv;\n\t}};\n".
(* println out_file_h [s.name] *)
Definition xa_145 : template := Eval vm_compute in compile
 "\t\tbool do_wr_{0}(tinyxml2::XMLElement *el, {0} *data);".
(* println out_file_cpp [class_name, s.name] *)
Definition xa_147 : template := Eval vm_compute in compile
 "bool {0}::do_wr_{1}(tinyxml2::XMLElement *el, {1} *data)\n\t{{".
(* println out_file_cpp [] *)
Definition xa_150 : template := Eval vm_compute in compile
 "\tbool rv = true;".
(* println out_file_cpp [s.name] *)
Definition xa_153 : template := Eval vm_compute in compile
 "\t{0} default_data;".
(* println out_file_cpp [sim.name] *)
Definition xa_167 : template := Eval vm_compute in compile
 "\tel->SetAttribute(\""{0}\"", data->{0});".
(* println out_file_cpp [sim.name] *)
Definition xa_172 : template := Eval vm_compute in compile
 "\tif(m_delta_only == false || data->{0} != default_data.{0})\n\t\tel->SetAttribute(\""{0}\"", data->{0});".
(* println out_file_cpp [sim.name] *)
Definition xa_180 : template := Eval vm_compute in compile
 "\tel->SetAttribute(\""{0}\"", data->{0}.c_str());".
(* println out_file_cpp [sim.name] *)
Definition xa_185 : template := Eval vm_compute in compile
 "\tif(m_delta_only == false || data->{0} != default_data.{0})\n\t\tel->SetAttribute(\""{0}\"", data->{0}.c_str());".
(* println out_file_cpp [sim.name] *)
Definition xa_194 : template := Eval vm_compute in compile
 "\tel->SetAttribute(\""{0}\"", int(data->{0}));".
(* println out_file_cpp [sim.name] *)
Definition xa_199 : template := Eval vm_compute in compile
 "\tif(m_delta_only == false || data->{0} != default_data.{0})\n\t\tel->SetAttribute(\""{0}\"", int(data->{0}));".
(* println out_file_cpp [sim.name] *)
Definition xa_208 : template := Eval vm_compute in compile
 "\tel->SetAttribute(\""{0}\"", unsigned(data->{0}));".
(* println out_file_cpp [sim.name] *)
Definition xa_213 : template := Eval vm_compute in compile
 "\tif(m_delta_only == false || data->{0} != default_data.{0})\n\t\tel->SetAttribute(\""{0}\"", unsigned(data->{0}));".
(* println out_file_cpp [sim.name] *)
Definition xa_219 : template := Eval vm_compute in compile
 "\t// WARNING FAILED TO PROCESS {}\n".
(* println stdout [sim.name] *)
Definition xa_220 : template := Eval vm_compute in compile
 "WARNING : FAILED TO PROCESS {}".
(* println out_file_cpp [] *)
Definition xa_241 : template := Eval vm_compute in compile
 "\ttinyxml2::XMLElement *ch_el;".
(* println out_file_cpp [co.name] *)
Definition xa_252 : template := Eval vm_compute in compile
 "\tel->SetAttribute(\""{0}\"", stfx::s_from_e(data->{0}).c_str());".
(* println out_file_cpp [co.name] *)
Definition xa_257 : template := Eval vm_compute in compile
 "\tif(m_delta_only == false || data->{0} != default_data.{0})\n\t\tel->SetAttribute(\""{0}\"", stfx::s_from_e(data->{0}).c_str());".
(* println out_file_cpp [co.name, co.type_name] *)
Definition xa_263 : template := Eval vm_compute in compile
 "\tch_el = el->InsertNewChildElement(\""{0}\"");\n\tif (ch_el != nullptr)\n\t\t{{\n\t\tdo_wr_{1}(ch_el, &data->{0});\n\t\t}}".
(* println out_file_cpp [co.name, co.type_name] *)
Definition xa_271 : template := Eval vm_compute in compile
 "\tch_el = el->InsertNewChildElement(\""{0}\"");\n\tif (ch_el != nullptr)\n\t\t{{\n\t\tfor ({1} itr : data->{0})\n\t\t\t{{\n\t\t\ttinyxml2::XMLElement *ch_ch_el = ch_el->InsertNewChildElement(\""{1}\"");\n\t\t\tdo_wr_{1}(ch_ch_el, &itr);\n\t\t\t}}\n\t\t}}".
(* println out_file_cpp [co.name] *)
Definition xa_283 : template := Eval vm_compute in compile
 "// enum_or_struct_E {}\t NEEDS TO BE FIXED!!".
(* println stdout [co.name] *)
Definition xa_284 : template := Eval vm_compute in compile
 "// enum_or_struct_E {}\t NEEDS TO BE FIXED!!".
(* println out_file_cpp [co.name] *)
Definition xa_288 : template := Eval vm_compute in compile
 "\t// WARNING FAILED TO PROCESS {}".
(* println stdout [co.name] *)
Definition xa_289 : template := Eval vm_compute in compile
 "\t// WARNING FAILED TO PROCESS {}".
(* println out_file_cpp [] *)
Definition xa_294 : template := Eval vm_compute in compile
 "\treturn rv;\n\t}};\n".

(** *** creation/ini/process_items_ini.cpp *)

(* println stdout [out_pathfilename_cpp] *)
Definition ini_42 : template := Eval vm_compute in compile
 "Opened ini struct .cpp file :\t{}".
(* println stdout [out_pathfilename_h] *)
Definition ini_47 : template := Eval vm_compute in compile
 "Opened ini struct .h file :\t{}".
(* println f_cpp [out_filename_cpp] *)
Definition ini_50 : template := Eval vm_compute in compile
 "// {}".
(* println f_cpp [m_stfx_info] *)
Definition ini_51 : template := Eval vm_compute in compile
 "{}".
(* println f_cpp [out_filename_h] *)
Definition ini_52 : template := Eval vm_compute in compile
 "#include \""{}\""\n".
(* println f_cpp [] *)
Definition ini_53 : template := Eval vm_compute in compile
 "#include <string>\n#include <map>\n#include <regex>\n#include <stdexcept>".
(* println f_cpp [] *)
Definition ini_59 : template := Eval vm_compute in compile
 "#include <fmt/format.h>".
(* println f_cpp [] *)
Definition ini_61 : template := Eval vm_compute in compile
 "".
(* println f_cpp [] *)
Definition ini_65 : template := Eval vm_compute in compile
 "// not including blank enum file".
(* println f_cpp [enums_filename_h] *)
Definition ini_69 : template := Eval vm_compute in compile
 "#include \""{}\""".
(* println f_cpp [in_filename] *)
Definition ini_73 : template := Eval vm_compute in compile
 "#include \""{}\""".
(* println f_h [out_filename_h] *)
Definition ini_76 : template := Eval vm_compute in compile
 "// {}\n".
(* println f_h [m_stfx_info] *)
Definition ini_77 : template := Eval vm_compute in compile
 "{}".
(* println f_h [] *)
Definition ini_79 : template := Eval vm_compute in compile
 "#pragma once\n\n#include <string>\n#include <map>\n".
(* println f_h [in_filename] *)
Definition ini_87 : template := Eval vm_compute in compile
 "#include \""{}\""".
(* println f_h [] *)
Definition ini_89 : template := Eval vm_compute in compile
 "".
(* println f_h [reader_class_name] *)
Definition ini_92 : template := Eval vm_compute in compile
 "class {0}\n\t{{\n\tprivate:\n\t\tstruct read_item_S\n\t\t\t{{\n\t\t\tstd::map<std::string, std::string>items;\n\t\t\tstd::map<std::string, read_item_S>under;\n\t\t\t}};\n\t\tread_item_S m_lookup;\n\t\tstd::string m_multiline_string_key;\n\t\tstd::string m_multiline_string_value;\n\tpublic:\n\t\t{0}();".
(* println f_cpp [reader_class_name] *)
Definition ini_107 : template := Eval vm_compute in compile
 "\n{0}::{0}()\n\t{{\n\t}}\n".
(* println f_h [s.name] *)
Definition ini_118 : template := Eval vm_compute in compile
 "\t\tvirtual bool read_from_file(std::string const &filename, {} &struct_to_fill);".
(* println f_cpp [reader_class_name, s.name] *)
Definition ini_120 : template := Eval vm_compute in compile
 "bool {0}::read_from_file(std::string const &filename, {1} &struct_to_fill)\n\t{{\n\tbool rv{{}};\n\tstd::FILE *file{{}};\n\tfile = std::fopen(filename.c_str(), \""r\"");\n\tif (file != nullptr)\n\t\t{{\n\t\tread_item_S *current_lookup = &m_lookup;\n\t\tconst int buflen = 80;\n\t\tchar buf[buflen + 1];\n\t\twhile(nullptr != std::fgets(buf, buflen, file))\n\t\t\t{{\n\t\t\tstd::string line{{ buf }};\n\t\t\tsize_t pos = line.find('%');\t// remove remainder of line after comment character... \n\t\t\tif (pos != std::string::npos)\n\t\t\t\t{{\n\t\t\t\tline = line.substr(0, pos);\n\t\t\t\t}}\n\t\t\tif (line.length() == 0)\n\t\t\t\tcontinue;\n\t\t\tif (m_multiline_string_key.length() != 0 && line[0] != ' ')\n\t\t\t\t{{\n\t\t\t\tcurrent_lookup->items[m_multiline_string_key] = m_multiline_string_value;\n\t\t\t\tm_multiline_string_key = \""\"";\n\t\t\t\tm_multiline_string_value = \""\"";\n\t\t\t\t}}\n\n\t\t\tstd::smatch res;\n\t\t\tstd::regex regex;\n\t\t\tswitch (line[0])\n\t\t\t\t{{\n\t\t\t\tcase '[':\n\t\t\t\t\tregex = \""\\\\[(.+)\\\\]\"";\n\t\t\t\t\tif (std::regex_search(line, res, regex) == true)\n\t\t\t\t\t\t{{\n\t\t\t\t\t\tstd::string key = res[1].str();\n\t\t\t\t\t\tread_item_S new_item;\n\t\t\t\t\t\tm_lookup.under[key] = new_item;\n\t\t\t\t\t\tcurrent_lookup = &m_lookup.under[key];\n\t\t\t\t\t\t// fmt::println(\""[{{}}]\"", key);\n\t\t\t\t\t\t}}\n\n\t\t\t\t\tbreak;\n\t\t\t\tcase ' ':\n\t\t\t\t\t// space as first character is a \""continue previous line\"" string...\n\t\t\t\t\tm_multiline_string_value += line;\n\t\t\t\t\tbreak;\n\t\t\t\tdefault:\n\t\t\t\t\tregex = \""(\\\\w+) (.+)\"";\n\t\t\t\t\tif (std::regex_search(line, res, regex) == true)\n\t\t\t\t\t\t{{\n\t\t\t\t\t\tstd::string key = res[1].str();\n\t\t\t\t\t\tstd::string value = res[2].str();\n\t\t\t\t\t\tcurrent_lookup->items[key] = value;\n\t\t\t\t\t\t// fmt::println(\""{{}} = {{}}\"", key, value);\n\t\t\t\t\t\t}}\n\t\t\t\t\telse\n\t\t\t\t\t\t{{\n\t\t\t\t\t\tregex = \""(\\\\w+)\"";\n\t\t\t\t\t\tif (std::regex_search(line, res, regex) == true)\n\t\t\t\t\t\t\t{{\n\t\t\t\t\t\t\tm_multiline_string_key = res[1].str();\n\t\t\t\t\t\t\tm_multiline_string_value = \""\\n\""; \n\t\t\t\t\t\t\t}}\n\t\t\t\t\t\t}}\n\t\t\t\t\tbreak;\n\t\t\t\t}}\n\t\t\t}}\n\t\tstd::fclose(file);\n\n\t\trv = do_rd_{1}(\""\"", struct_to_fill);\n\t\t}}\n\treturn rv;\n\t}}\n".
(* println f_h [] *)
Definition ini_198 : template := Eval vm_compute in compile
 "\tprotected:".
(* println f_h [] *)
Definition ini_206 : template := Eval vm_compute in compile
 "\t}};\n".
(* println f_cpp [] *)
Definition ini_208 : template := Eval vm_compute in compile
 "\n".
(* println f_h [writer_class_name, reader_class_name] *)
Definition ini_214 : template := Eval vm_compute in compile
 "class {0} : public {1}\n\t{{\n\tprivate:\n\t\tbool m_delta_only {{}};\n\t\tstd::FILE *m_file {{nullptr}};\n\tpublic:\n\t\t{0}(bool delta_only = true);".
(* println f_cpp [writer_class_name, reader_class_name] *)
Definition ini_224 : template := Eval vm_compute in compile
 "\n{0}::{0}(bool delta_only) : {1}()\n{{\n\tm_delta_only = delta_only;\n}}\n".
(* println f_h [s.name] *)
Definition ini_237 : template := Eval vm_compute in compile
 "\t\tvirtual bool write_to_file(std::string const &filename, {} &struct_to_read);".
(* println f_cpp [writer_class_name, s.name] *)
Definition ini_239 : template := Eval vm_compute in compile
 "bool {0}::write_to_file(std::string const &filename, {1} &struct_to_read)\n\t{{\n\tbool rv{{}};\n\tm_file = std::fopen(filename.c_str(), \""w\"");\n\tif (m_file != nullptr)\n\t\t{{\n\t\trv = do_wr_{1}(\""\"", &struct_to_read);\n\t\tstd::fclose(m_file);\n\t\t}}\n\treturn rv;\n\t}}\n".
(* println f_h [] *)
Definition ini_254 : template := Eval vm_compute in compile
 "\tprotected:".
(* println f_h [] *)
Definition ini_262 : template := Eval vm_compute in compile
 "\t}};".
(* println f_cpp [] *)
Definition ini_264 : template := Eval vm_compute in compile
 "\n".
(* println stdout [out_filename_h] *)
Definition ini_272 : template := Eval vm_compute in compile
 "\nERROR : Failed to open output file {}".
(* println stdout [out_filename_cpp] *)
Definition ini_278 : template := Eval vm_compute in compile
 "\nERROR : Failed to open output file {}".
(* println out_file_h [s.name] *)
Definition ini_299 : template := Eval vm_compute in compile
 "\t\tbool do_rd_{0}(std::string path, {0} &data);".
(* println out_file_cpp [class_name, s.name] *)
Definition ini_301 : template := Eval vm_compute in compile
 "bool {0}::do_rd_{1}(std::string path, {1} &data)\n\t{{\n".
(* println out_file_cpp [] *)
Definition ini_305 : template := Eval vm_compute in compile
 "\tbool rv = true;".
(* println out_file_cpp [] *)
Definition ini_306 : template := Eval vm_compute in compile
 "\ttry".
(* println out_file_cpp [] *)
Definition ini_307 : template := Eval vm_compute in compile
 "\t\t{{".
(* println out_file_cpp [] *)
Definition ini_310 : template := Eval vm_compute in compile
 "\t\tauto found_items = m_lookup.under.find(path);".
(* println out_file_cpp [] *)
Definition ini_311 : template := Eval vm_compute in compile
 "\t\tif (found_items != m_lookup.under.cend())".
(* println out_file_cpp [] *)
Definition ini_312 : template := Eval vm_compute in compile
 "\t\t\t{{".
(* println out_file_cpp [] *)
Definition ini_313 : template := Eval vm_compute in compile
 "\t\t\tauto items = found_items->second.items;".
(* println out_file_cpp [sim.name] *)
Definition ini_350 : template := Eval vm_compute in compile
 "\t// WARNING FAILED TO PROCESS {}\n".
(* println stdout [sim.name] *)
Definition ini_351 : template := Eval vm_compute in compile
 "WARNING : FAILED TO PROCESS {}".
(* println out_file_cpp [sim.name, convert] *)
Definition ini_354 : template := Eval vm_compute in compile
 "\t\t\tauto {0} = items.find(\""{0}\"");\n\t\t\tif({0} != items.cend())\n\t\t\t\t{{\n\t\t\t\tdata.{0} = {1}({0}->second);\n\t\t\t\t}}".
(* println out_file_cpp [co.name] *)
Definition ini_369 : template := Eval vm_compute in compile
 "\t\t\tauto {0} = items.find(\""{0}\"");\n\t\t\tif({0} != items.cend())\n\t\t\t\t{{\n\t\t\t\tstfx::s_to_e({0}->second, data.{0});\n\t\t\t\t}}".
(* println out_file_cpp [] *)
Definition ini_381 : template := Eval vm_compute in compile
 "\t\t\t}}".
(* println out_file_cpp [] *)
Definition ini_400 : template := Eval vm_compute in compile
 "\t\tif (path.length() > 0)\n\t\t\tpath += \"".\"";".
(* println out_file_cpp [co.name, co.type_name, space_name] *)
Definition ini_417 : template := Eval vm_compute in compile
 "\t\trv = do_rd_{1}(path + \""{2}\"", data.{0});".
(* println out_file_cpp [co.name] *)
Definition ini_422 : template := Eval vm_compute in compile
 "// vector {}\t within structure NOT SUPPORTED by n_ini".
(* println stdout [co.name] *)
Definition ini_423 : template := Eval vm_compute in compile
 "// vector {}\t within structure NOT SUPPORTED by n_ini".
(* println out_file_cpp [co.name] *)
Definition ini_427 : template := Eval vm_compute in compile
 "// enum_or_struct_E {}\t NEEDS TO BE FIXED!!".
(* println stdout [co.name] *)
Definition ini_428 : template := Eval vm_compute in compile
 "// enum_or_struct_E {}\t NEEDS TO BE FIXED!!".
(* println out_file_cpp [co.name] *)
Definition ini_432 : template := Eval vm_compute in compile
 "\t// WARNING FAILED TO PROCESS {}".
(* println stdout [co.name] *)
Definition ini_433 : template := Eval vm_compute in compile
 "\t// WARNING FAILED TO PROCESS {}".
(* println out_file_cpp [] *)
Definition ini_440 : template := Eval vm_compute in compile
 "\t\t}}".
(* println out_file_cpp [] *)
Definition ini_442 : template := Eval vm_compute in compile
 "\tcatch (std::exception &)".
(* println out_file_cpp [] *)
Definition ini_443 : template := Eval vm_compute in compile
 "\t\t{{".
(* println out_file_cpp [] *)
Definition ini_444 : template := Eval vm_compute in compile
 "\t\trv = false;".
(* println out_file_cpp [] *)
Definition ini_445 : template := Eval vm_compute in compile
 "\t\t}}".
(* println out_file_cpp [] *)
Definition ini_446 : template := Eval vm_compute in compile
 "\treturn rv;\n\t}};\n".
(* println out_file_h [s.name] *)
Definition ini_456 : template := Eval vm_compute in compile
 "\t\tbool do_wr_{0}(std::string path, {0} *data);".
(* println out_file_cpp [class_name, s.name] *)
Definition ini_458 : template := Eval vm_compute in compile
 "bool {0}::do_wr_{1}(std::string path, {1} *data)\n\t{{\n".
(* println out_file_cpp [] *)
Definition ini_462 : template := Eval vm_compute in compile
 "\tbool rv = true;".
(* println out_file_cpp [] *)
Definition ini_463 : template := Eval vm_compute in compile
 "\tstd::string lower_path;".
(* println out_file_cpp [s.name] *)
Definition ini_466 : template := Eval vm_compute in compile
 "\t{0} default_data;".
(* println out_file_cpp [] *)
Definition ini_468 : template := Eval vm_compute in compile
 "\tif (path.length() > 0)\n\t\t{{\n\t\tfmt::println(m_file, \""\"");\n\t\tfmt::println(m_file, \""[{{}}]\"", path);\n\t\t}}\n".
(* println out_file_cpp [sim.name] *)
Definition ini_483 : template := Eval vm_compute in compile
 "\tfmt::println(m_file, \""{0} {{}}\"", (int)data->{0});".
(* println out_file_cpp [sim.name] *)
Definition ini_489 : template := Eval vm_compute in compile
 "\tif(m_delta_only == false || data->{0} != default_data.{0})\n\t\t{{\n\t\tfmt::println(m_file, \""{0} {{}}\"", (int)data->{0});\n\t\t}}".
(* println out_file_cpp [sim.name] *)
Definition ini_508 : template := Eval vm_compute in compile
 "\tfmt::println(m_file, \""{0} {{}}\"", data->{0});".
(* println out_file_cpp [sim.name] *)
Definition ini_514 : template := Eval vm_compute in compile
 "\tif(m_delta_only == false || data->{0} != default_data.{0})\n\t\t{{\n\t\tfmt::println(m_file, \""{0} {{}}\"", data->{0});\n\t\t}}".
(* println out_file_cpp [sim.name] *)
Definition ini_524 : template := Eval vm_compute in compile
 "\t// WARNING FAILED TO PROCESS {}\n".
(* println stdout [sim.name] *)
Definition ini_525 : template := Eval vm_compute in compile
 "WARNING : FAILED TO PROCESS {}".
(* println out_file_cpp [co.name] *)
Definition ini_555 : template := Eval vm_compute in compile
 "\tfmt::println(m_file, \""{0} {{}}\"", data->{0});".
(* println out_file_cpp [co.name] *)
Definition ini_562 : template := Eval vm_compute in compile
 "\tif(m_delta_only == false || data->{0} != default_data.{0})\n\t\t{{\n\t\tfmt::println(m_file, \""{0} {{}}\"", data->{0});\n\t\t}}".
(* println out_file_cpp [co.name, co.type_name, space_name] *)
Definition ini_571 : template := Eval vm_compute in compile
 "\tlower_path = path;\n\tif(lower_path.length() > 0)\n\t{{\n\t\tlower_path += \"".\"";\t\t//separator\n\t}}\n\tlower_path += \""{2}\"";\n\tdo_wr_{1}(lower_path, &data->{0});\n".
(* println out_file_cpp [co.name] *)
Definition ini_582 : template := Eval vm_compute in compile
 "// vector {}\t within structure NOT SUPPORTED by n_ini".
(* println stdout [co.name] *)
Definition ini_583 : template := Eval vm_compute in compile
 "// vector {}\t within structure NOT SUPPORTED by n_ini".
(* println out_file_cpp [co.name] *)
Definition ini_587 : template := Eval vm_compute in compile
 "// enum_or_struct_E {}\t NEEDS TO BE FIXED!!".
(* println stdout [co.name] *)
Definition ini_588 : template := Eval vm_compute in compile
 "// enum_or_struct_E {}\t NEEDS TO BE FIXED!!".
(* println out_file_cpp [co.name] *)
Definition ini_592 : template := Eval vm_compute in compile
 "\t// WARNING FAILED TO PROCESS {}".
(* println stdout [co.name] *)
Definition ini_593 : template := Eval vm_compute in compile
 "\t// WARNING FAILED TO PROCESS {}".
(* println out_file_cpp [] *)
Definition ini_598 : template := Eval vm_compute in compile
 "\treturn rv;\n\t}};\n".

