(* The generated files, written out with the places where the robot appears. *)
From Coq Require Import String Ascii List Arith ZArith.
From Verif.Model Require Import Base Robot.
From Verif.Spec Require Import Text.
Import ListNotations.
Open Scope string_scope.

(* thunder_<cls>.h *)
Definition header_text (guard cls rname n ela e kO dO dlO dmO el decls : string) : string :=
"#ifndef " ++ guard ++ "_H
#define " ++ guard ++ "_H

#include <iostream>
#include <string>
#include <cmath>
#include <eigen3/Eigen/Dense>
#include <yaml-cpp/yaml.h>
#include <fstream>


/* Class thunder_" ++ cls ++ " 
Useful functions for adaptive control with Slotine-Li regressor
Usable only for generated code from casadi library! */
class thunder_" ++ cls ++ "{

	private:
		// standard number of parameters
		const int STD_PAR_LINK = 10;
		/* Joints' variables */
		Eigen::VectorXd q, dq, ddq, d3q, d4q, dqr, ddqr, par_DYN, par_REG, par_Dl;
		Eigen::VectorXd x, dx, ddx, ddxr, par_K, par_D, par_Dm, par_Mm;
		Eigen::VectorXd w;
		Eigen::VectorXd par_DHtable, par_gravity, par_world2L0, par_Ln2EE;
		std::vector<int> DHtable_symb, gravity_symb, world2L0_symb, Ln2EE_symb;

		void update_inertial_DYN();
		void update_inertial_REG();

		struct LinkProp {
			double mass;
			std::vector<double> parI = std::vector<double>(6); // Inertia in the order xx, xy, xz, yy, yz, zz
			std::vector<double> xyz = std::vector<double>(3); // Origin xyz as std::vector
			std::vector<double> rpy = std::vector<double>(3);
			std::vector<double> Dl = std::vector<double>(1);
			std::string name;
		};

		struct urdf2dh_T{
			std::vector<double> xyz;
			std::vector<double> rpy;
		};

		void fillInertialYaml(int num_joints, YAML::Emitter &emitter_, std::vector<LinkProp> &links_prop_, std::vector<std::string> keys_);
		// void transformBodyInertial(std::vector<double> d_i, std::vector<double> rpy_i, const LinkProp body_urdf, LinkProp &body);
		// void mergeBodyInertial(const LinkProp body1, const LinkProp body2, LinkProp &newBody);

		Eigen::Matrix3d rpyRot(const std::vector<double> rpy);
		Eigen::Matrix3d createI(const std::vector<double> parI);
		Eigen::Matrix3d hat(const Eigen::Vector3d v);
		
	public:
		const std::string " ++ cls ++ "Name = """ ++ rname ++ """;
		const int n_joints = " ++ n ++ ";
		const bool ELASTIC = " ++ ela ++ ";
		const int numElasticJoints = " ++ e ++ ";
		const int K_order = " ++ kO ++ ";
		const int D_order = " ++ dO ++ ";
		const int Dl_order = " ++ dlO ++ ";
		const int Dm_order = " ++ dmO ++ ";
		const int numParDYN = STD_PAR_LINK*n_joints;
		const int numParREG = STD_PAR_LINK*n_joints;
		// const int numParELA = /*#-numParELA-#*/;
		const int isElasticJoint[" ++ n ++ "] = " ++ el ++ ";

		/* Empty constructor, initialization inside */
		thunder_" ++ cls ++ "();
		/* Constructor to init variables*/
		// thunder_" ++ cls ++ "(const int);
		/* Destructor*/
		~thunder_" ++ cls ++ "() = default;
		
		/* Resize variables */
		void resizeVariables();
		/* Init variables from number of joints*/
		// void init(const int);
		/* Set q, dq, dqr, ddqr, to compute Regressor and update state*/
		void setArguments(const Eigen::VectorXd& q_, const Eigen::VectorXd& dq_, const Eigen::VectorXd& dqr_, const Eigen::VectorXd& ddqr_);
		void set_q(const Eigen::VectorXd& q_);
		void set_dq(const Eigen::VectorXd& dq_);
		void set_ddq(const Eigen::VectorXd& ddq_);
		void set_d3q(const Eigen::VectorXd& d3q_);
		void set_d4q(const Eigen::VectorXd& d4q_);
		void set_dqr(const Eigen::VectorXd& dqr_);
		void set_ddqr(const Eigen::VectorXd& ddqr_);
		void set_x(const Eigen::VectorXd& x_);
		void set_dx(const Eigen::VectorXd& dx_);
		void set_ddx(const Eigen::VectorXd& ddx_);
		void set_ddxr(const Eigen::VectorXd& ddxr_);
		void set_w(const Eigen::VectorXd& w_);
		void set_par_REG(const Eigen::VectorXd& par_, bool update_DYN = true);
		void set_par_DYN(const Eigen::VectorXd& par_, bool update_REG = true);
		void set_par_K(const Eigen::VectorXd& par_);
		void set_par_D(const Eigen::VectorXd& par_);
		void set_par_Dm(const Eigen::VectorXd& par_);
		void set_par_Mm(const Eigen::VectorXd& par_);
		void set_par_Dl(const Eigen::VectorXd& par_);
		void set_par_DHtable(const Eigen::MatrixXd& par_);
		void set_par_gravity(const Eigen::VectorXd& par_);
		void set_par_world2L0(const Eigen::VectorXd& par_);
		void set_par_Ln2EE(const Eigen::VectorXd& par_);
		// void set_par_ELA(const Eigen::VectorXd& par_);
		Eigen::VectorXd get_par_REG();
		Eigen::VectorXd get_par_DYN();
		Eigen::VectorXd get_par_K();
		Eigen::VectorXd get_par_D();
		Eigen::VectorXd get_par_Dm();
		Eigen::VectorXd get_par_Mm();
		Eigen::VectorXd get_par_Dl();
		Eigen::MatrixXd get_par_DHtable();
		Eigen::VectorXd get_par_gravity();
		Eigen::VectorXd get_par_world2L0();
		Eigen::VectorXd get_par_Ln2EE();
		// Eigen::VectorXd get_par_ELA();

		Eigen::VectorXd load_par_REG(std::string, bool update_DYN = true);
		void save_par_REG(std::string);
		void load_conf(std::string, bool update_REG = true);
		void save_par_DYN(std::string);
		int save_par(std::string par_file);
		// void load_par_DYN(std::string);
		// void save_par_DYN(std::string);
		// void load_par_elastic(std::string);
		// void load_par_ELA(std::string);
		// void save_par_ELA(std::string);

		int get_numJoints();
		// int get_numParLink();
		int get_numParDYN();
		int get_numParREG();
		// int get_numParELA();

		// ----- generated functions ----- //
		" ++ decls ++ "
};

#endif".

(* CMakeLists.txt of the python module *)
Definition cmake_text (cls : string) : string :=
"
cmake_minimum_required(VERSION 3.10)

include(FetchContent)

FetchContent_Declare(
  yaml-cpp
  GIT_REPOSITORY https://github.com/jbeder/yaml-cpp.git
  GIT_TAG master # Can be a tag (yaml-cpp-x.x.x), a commit hash, or a branch name (master)
)
FetchContent_MakeAvailable(yaml-cpp)
project(thunder_" ++ cls ++ "_py)

set(CMAKE_CXX_STANDARD 14)

find_package(yaml-cpp REQUIRED)
find_package(Python 3.7 COMPONENTS Interpreter Development REQUIRED)
find_package(pybind11 REQUIRED)
find_package(Eigen3 REQUIRED)


pybind11_add_module(thunder_" ++ cls ++ "_py thunder_" ++ cls ++ ".cpp " ++ cls ++ "_gen.cpp)

target_link_libraries(thunder_" ++ cls ++ "_py PRIVATE yaml-cpp::yaml-cpp pybind11::module Eigen3::Eigen)".

(* the python module at the end of thunder_<cls>.cpp; defs: the definitions of the generated getters *)
Definition module_text (cls defs : string) : string :=
"
// ----- Python bindings ----- //
namespace py = pybind11;

PYBIND11_MODULE(thunder_" ++ cls ++ "_py, m) {
	py::class_<thunder_" ++ cls ++ ">(m, ""thunder_" ++ cls ++ """)
		.def(py::init<>())
		.def(""resizeVariables"", &thunder_" ++ cls ++ "::resizeVariables)
		.def(""setArguments"", &thunder_" ++ cls ++ "::setArguments, ""Set q, dq, dqr, ddqr"", py::arg(""q""), py::arg(""dq""), py::arg(""dqr""), py::arg(""ddqr""))
		.def(""set_q"", &thunder_" ++ cls ++ "::set_q, ""Set q"", py::arg(""q""))
		.def(""set_dq"", &thunder_" ++ cls ++ "::set_dq, ""Set dq"", py::arg(""dq""))
		.def(""set_ddq"", &thunder_" ++ cls ++ "::set_ddq, ""Set ddq"", py::arg(""ddq""))
		.def(""set_d3q"", &thunder_" ++ cls ++ "::set_d3q, ""Set d3q"", py::arg(""d3q""))
		.def(""set_d4q"", &thunder_" ++ cls ++ "::set_d4q, ""Set d4q"", py::arg(""d4q""))
		.def(""set_dqr"", &thunder_" ++ cls ++ "::set_dqr, ""Set dqr"", py::arg(""dqr""))
		.def(""set_ddqr"", &thunder_" ++ cls ++ "::set_ddqr, ""Set ddqr"", py::arg(""ddqr""))
		.def(""set_x"", &thunder_" ++ cls ++ "::set_x, ""Set x"", py::arg(""x""))
		.def(""set_dx"", &thunder_" ++ cls ++ "::set_dx, ""Set dx"", py::arg(""dx""))
		.def(""set_ddx"", &thunder_" ++ cls ++ "::set_ddx, ""Set ddx"", py::arg(""ddx""))
		.def(""set_ddxr"", &thunder_" ++ cls ++ "::set_ddxr, ""Set ddxr"", py::arg(""ddxr""))
		.def(""set_w"", &thunder_" ++ cls ++ "::set_w, ""Set w"", py::arg(""w""))
		.def(""set_par_REG"", &thunder_" ++ cls ++ "::set_par_REG, ""Set inertial parameters REG"", py::arg(""par""), py::arg(""update_DYN"") = true)
		.def(""set_par_DYN"", &thunder_" ++ cls ++ "::set_par_DYN, ""Set inertial parameters DYN"", py::arg(""par""), py::arg(""update_REG"") = true)
		.def(""set_par_K"", &thunder_" ++ cls ++ "::set_par_K, ""Set inertial parameters K"", py::arg(""par""))
		.def(""set_par_D"", &thunder_" ++ cls ++ "::set_par_D, ""Set inertial parameters D"", py::arg(""par""))
		.def(""set_par_Dm"", &thunder_" ++ cls ++ "::set_par_Dm, ""Set inertial parameters Dm"", py::arg(""par""))
		.def(""set_par_Mm"", &thunder_" ++ cls ++ "::set_par_Mm, ""Set inertial parameters Mm"", py::arg(""par""))
		.def(""set_par_Dl"", &thunder_" ++ cls ++ "::set_par_Dl, ""Set inertial parameters Dl"", py::arg(""par""))
		.def(""set_par_DHtable"", &thunder_" ++ cls ++ "::set_par_DHtable, ""Set inertial parameters DHtable"", py::arg(""par""))
		.def(""set_par_gravity"", &thunder_" ++ cls ++ "::set_par_gravity, ""Set inertial parameters gravity"", py::arg(""par""))
		.def(""set_par_world2L0"", &thunder_" ++ cls ++ "::set_par_world2L0, ""Set inertial parameters world2L0"", py::arg(""par""))
		.def(""set_par_Ln2EE"", &thunder_" ++ cls ++ "::set_par_Ln2EE, ""Set inertial parameters Ln2EE"", py::arg(""par""))
		.def(""get_par_REG"", &thunder_" ++ cls ++ "::get_par_REG, ""Get par parameters REG"")
		.def(""get_par_DYN"", &thunder_" ++ cls ++ "::get_par_DYN, ""Get inertial parameters DYN"")
		.def(""get_par_K"", &thunder_" ++ cls ++ "::get_par_K, ""Get par parameters K"")
		.def(""get_par_D"", &thunder_" ++ cls ++ "::get_par_D, ""Get par parameters D"")
		.def(""get_par_Dm"", &thunder_" ++ cls ++ "::get_par_Dm, ""Get par parameters Dm"")
		.def(""get_par_Mm"", &thunder_" ++ cls ++ "::get_par_Mm, ""Get par parameters Mm"")
		.def(""get_par_Dl"", &thunder_" ++ cls ++ "::get_par_Dl, ""Get par parameters Dl"")
		.def(""get_par_DHtable"", &thunder_" ++ cls ++ "::get_par_DHtable, ""Get par parameters par_DHtable"")
		.def(""get_par_gravity"", &thunder_" ++ cls ++ "::get_par_gravity, ""Get par parameters gravity"")
		.def(""get_par_world2L0"", &thunder_" ++ cls ++ "::get_par_world2L0, ""Get par parameters world2L0"")
		.def(""get_par_Ln2EE"", &thunder_" ++ cls ++ "::get_par_Ln2EE, ""Get par parameters Ln2EE"")
		.def(""load_par_REG"", &thunder_" ++ cls ++ "::load_par_REG, ""Load par parameters REG from YAML file"", py::arg(""file_path""), py::arg(""update_DYN"") = true)
		.def(""load_conf"", &thunder_" ++ cls ++ "::load_conf, ""Load configuration from YAML file"", py::arg(""file_path""), py::arg(""update_REG"") = true)
		.def(""save_par_REG"", &thunder_" ++ cls ++ "::save_par_REG, ""Save par parameters REG to YAML file"", py::arg(""file_path""))
		.def(""save_par_DYN"", &thunder_" ++ cls ++ "::save_par_DYN, ""Save inertial parameters DYN to YAML file"", py::arg(""file_path""))
		.def(""save_par"", &thunder_" ++ cls ++ "::save_par, ""Save all parameters into file"", py::arg(""file_path""))
		.def(""get_numJoints"", &thunder_" ++ cls ++ "::get_numJoints, ""Get number of joints"")
		.def(""get_numParDYN"", &thunder_" ++ cls ++ "::get_numParDYN, ""Get number of parameters per link"")
		.def(""get_numParREG"", &thunder_" ++ cls ++ "::get_numParREG, ""Get number of parameters"")
" ++ defs ++ "
}
".

(* how thunder_<cls>.cpp begins *)
Definition includes_text (cls : string) : string := lines ["#include " ++ dq ++ "thunder_" ++ cls ++ ".h" ++ dq; "#include " ++ dq ++ cls ++ "_gen.h" ++ dq].
(* the includes of the python module *)
Definition pybind_includes : string := lines ["#include <pybind11/pybind11.h>"; "#include <pybind11/eigen.h>"].

(* the directory the generator writes to: the working directory is an absolute path without a final slash *)
Definition output_dir (cwd name : string) : string := cwd ++ "/" ++ name ++ "_generatedFiles/".
(* the files of a robot in that directory *)
Definition gen_cpp (name : string) : string := name ++ "_gen.cpp".
Definition gen_h (name : string) : string := name ++ "_gen.h".
Definition class_h (name : string) : string := "thunder_" ++ name ++ ".h".
Definition class_cpp (name : string) : string := "thunder_" ++ name ++ ".cpp".
Definition conf_yaml (name : string) : string := name ++ "_conf.yaml".
Definition reg_yaml (name : string) : string := name ++ "_par_REG.yaml".
Definition no_char (c : ascii) (s : string) : Prop := forall i, ~ char_at s i c.
