.lia.cache
.nia.cache
*.vo
*.vos
*.vok
*.glob
*.aux
.Makefile.d
rocq/Makefile
rocq/Makefile.conf
rocq/.Makefile.d
